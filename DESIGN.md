# Formal model of ezwelty/glimpse in Rocq (Coq 8.16.1)

The status of each property is in MANIFEST.json; properties.jsonl states them in English.

## Modelling conventions

* Python ints, datetimes and timedeltas (microseconds) are `Z`; array lengths and indices `nat` or `Z`.
* Finite floats are exact reals `R`: **no rounding error is modelled anywhere**. IEEE special values are written out where the
  code depends on them: `option R` (`None` = nan), and `xr` (finite, +inf, -inf, nan; no signed zero) in the slab test.
* Exceptions are values: `result A = Ok a | Err kind`.
* Mutable objects are records passed and returned; a history is a list of operations folded over the record.
  Where aliasing matters (camera copies, raster buffers shared with the interpolator, camera objects shared by controls)
  objects are references into a heap.
* Randomness is an explicit argument (the drawn numbers); theorems quantify over all draws in the documented range.
* External libraries are parameters about which only what a theorem's hypotheses say is assumed. Those whose behaviour decides a
  property are modelled from the source of the pinned version: numpy 1.19.5 `searchsorted`/`interp`/`unique`/`linspace`/slicing,
  scipy 1.4.1 `RegularGridInterpolator` and `interp1d`, Python's `re` on the SVG patterns and `strptime`.
* Each definition in a model file cites the file and lines it models, and says where it simplifies.
* Property theorems are in `theories/P_*.v`, each followed by `Print Assumptions` and an `Example` that meets its hypotheses.
  Specifications that are independent of the model are in `*Spec.v` (or at the top of the P file).
* Suffixes: `_partial` = a proved part of the property; `_refuted` = a machine-checked proof that the documented behaviour fails,
  stated on the model (these are the findings).

## Trusted base

* Coq 8.16.1's kernel (no `-type-in-type`, no disabled checks, no plugins, no functors or module types of our own).
* The standard library axioms listed per theorem at the end of this file: the classical real numbers and, in places, excluded middle.
* Our reading of the Python source, as written in the `*Model.v` files, and of numpy/scipy where cited.

## Which parts of the code are modelled

| source (src/glimpse) | model file | modelled | not modelled |
|---|---|---|---|
| helpers.py | HelpersModel, RayModel, CircleModel, LineModel, TileModel, FilterModel, PathModel, WriteModel, FlatJsonModel, FilesModel, MeshModel | bresenham_line, bresenham_circle, interpolate_line, boolean_split, format_list, sorted_nearest, box helpers, box_to_grid, slab test and clipping, datetime_range, select_datetimes, rasterize_points, compute_cdf/match_cdf, strip_path, write_json; see the table below for later additions | plotting and GIS helpers, merge_dicts, pickle, statistics wrappers of numpy, parallel pools |
| camera.py | CameraModel, CameraHeap, CameraJsonModel, DemModel, ReversibleModel, MeshModel, LookupModel | construction, properties and setters, copy/reset/idealize, resize, R and Rprime, projection and unprojection with radial/tangential distortion, k1, Oulu, regula falsi and table lookup undistortion, reversible, elevation corrections, infront/inframe, rasterize, project_dem without rescaling, spherical coordinates, viewbox | plotting, the text of JSON files |
| raster.py: Grid, Raster | GridModel, RasterModel, ViewModel, GetitemModel, HorizonModel, RasterFileModel, GradientModel, GridSampleModel, RasterizeModel, WriteModel, EqModel, ResizeModel, ShareModel, MatrixModel | limits, sizes, cell conversions, indexing, snapping, cropping, tiles, caches, shift, sampling (points, grids), resample, data extent, viewshed, horizon, fill_circle, gradient, hillshade, opening and reading of files, rasterize, rasterize_polygons, writing of files, equality, copy | GDAL resampling (a parameter), plotting |
| raster.py: RasterInterpolant | InterpModel | nearest, interpolation, extrapolation, sigma, cell size | cropping and resampling of rasters read from file |
| image.py | ImageModel, ProjectModel | construction from arguments and Exif, read and its cache, project (one band), write (WriteModel) | GDAL (a parameter), plotting |
| exif.py | ExifModel | tag access, datetime, exposure values, image and sensor size, dump | piexif (a parameter), file I/O |
| svg.py | SvgModel, SvgDocModel | points/polygons/paths/rects, transforms, read, element constructors, indentation, XML printing and parsing (elements, attributes, text), namespaces | declarations, comments, CDATA, non-ASCII text, warnings |
| track/observer.py | TimeModel, ZoneModel, TemplateModel, ObserverModel, AnimateModel | construction, index, subset, split, tile_box, extract_tile, shift_tile, sample_tile (points), cache_images, clear_images, animate | plot_box |
| track/tracker.py | ResampleModel, TimeModel, TrackModel, TrackOutModel, TemplateModel, TileModel, PoolModel | weights, resampling, statistics, datetimes, the track loop, what track returns, template matching geometry | the median filter of tiles (a parameter), spline evaluation (a parameter), progress bars, warnings |
| track/motion.py | MotionModel | the four motion models | - |
| track/tracks.py | TracksModel, TracksAnimateModel, TracksPlotModel | success, endpoints and masks; frames, scales and contents of animate; contents of the plots | styles, pickling |
| optimize.py: Cameras | ParamsModel, BuildModel, FitModel, ScalesModel | construction, fit, scale factors, parameter selection and bounds, packing, groups, predicted, residuals, weights, sparsity | lmfit and scipy optimisers (only what they are given and what is done with their result), plotting |
| optimize.py: controls | ControlModel, LinesModel | Points, Lines, Matches, RotationMatches(XY, XYZ), resize, to_type, filter, projection of lines | plotting |
| optimize.py, converter.py: plots | PlotModel | plot of Points, Lines, Matches, Polynomial, Cameras and Converter | figures and matplotlib; Cameras.plot_weights |
| optimize.py: detect_keypoints | DetectModel | detect_keypoints | the OpenCV detector (parameter) |
| optimize.py: ObserverCameras | OrientModel | construction, set and reset, objective, gradient, fit | scipy.optimize.minimize (any strategy), build_keypoints and build_matches |
| optimize.py: ransac | RansacModel | ransac, _ransac_samples | exceptions of the model |
| optimize.py: KeypointMatcher, match_keypoints | MatcherModel, PoolModel | pair selection, files (complete and partial), drop_images, counts, criteria, parallel runs | OpenCV detection and matching (parameters), CLAHE, sharedmem (modelled after its source, not in /repo) |
| convert/* | ConvertModel, CalibModel | Agisoft, Matlab, OpenCV, PhotoModeler projections and conversions, grids of points, reading of XML and text reports | float() of a text and scipy least_squares (parameters) |

Assumptions that concern several properties: datetimes are compared exactly (float rounding of POSIX timestamps is not modelled; their reading in the computer's
time zone is the subject of C115 and elsewhere assumed uniform); SVG numbers print and read back exactly (proved for integers; for floats this is `repr`); keypoint matching is deterministic;
errors raised by `reduce_particles` are outside the model; GDAL returns a window of native size unchanged and other windows in the size asked for.


## Properties: what is modelled and how it is proved

| id | property | status | model | proof |
|---|---|---|---|---|
| C01 | Bresenham line is a minimal connected path hugging the segment | proved | `bresenham_line` over Z (HelpersModel) | loop invariant relating `error` to the exact line |
| C02 | Bresenham line is independent of travel direction | proved | same | the loop is a function of the unordered end points |
| C03 | Splitting by a boolean mask is lossless and maximal | proved | `boolean_split` over lists | induction on the mask, run decomposition |
| C04 | format_list output length contract | proved | `format_list` with aliasing | case analysis, cyclic indexing |
| C05 | sorted_nearest returns a nearest element | proved | `searchsorted`, neighbours, argmin | sortedness |
| C06 | intersect_boxes is the greatest common box | proved | `intersect_boxes`, nan as None | induction over boxes |
| C07 | bounding_box is the tightest enclosing box | proved | `bounding_box` | induction over points |
| C08 | box_to_grid enumerates exactly the snapped lattice points inside the box | proved | `box_to_grid` | floor arithmetic |
| C09 | Ray/box intersection is exactly the slab intersection | proved | slab test over extended reals with nan (RayModel) | case analysis per axis; exact result also for face-plane rays |
| C10 | Polyline clipping inserts the boundary crossing vertices | proved | clipping over lists of points | induction over edges |
| C100 | writing rasters and images to file | proved | write_raster, driver choice, crs_to_wkt, Raster.write and open over a file system (WriteModel) | case analysis of the order of effects; the round trip composes the transforms of write and open (C92) |
| C101 | equality and copies of grids and rasters | proved | Grid and Raster __eq__, copy, grid (EqModel) | numpy array_equiv with broadcasting, unfolded to values cell by cell |
| C102 | annotations written as SVG are read back | proved | element constructors, _indent_etree, ElementTree.tostring and parse with namespaces, _strip_etree_namespaces, read (SvgDocModel, SvgModel) | induction on trees: a recursive-descent parser inverts the printer; composed with the theorems on read (C72) and paths (C49) |
| C103 | flat JSON arrays have the same content | proved | write_json: json.dumps with indent, the regular expression and its replacement (FlatJsonModel) | a simulation: an automaton over the text follows the lexical state and the expression; induction on values shows the text stays in its safe states |
| C104 | scale factors of camera parameters are about one pixel | proved | camera_scales and _build_scales on CameraModel and ParamsModel (ScalesModel) | algebra on the projection with one parameter changed: rows of the rotation under a change of one angle, the lens formula for distortion; the order of the scales from the proof about initial parameters |
| C105 | keypoints and matches built in parallel are those of a sequential run, under every schedule | proved | a pool of workers whose tasks are small-step programs over shared files and shared or private memory (PoolModel); build_keypoints and build_matches step by step | invariant over all interleavings (what each task knows about memory and files at each point, the turn of the ordered section), a decreasing measure, and progress; the end state is compared with the sequential model |
| C106 | tracks computed in parallel | proved | the same pool with tracks as steps on a private state | invariant: the state of a worker is the state after some earlier tracks; explicit schedules for the findings |
| C107 | calibrations read from XML files (Agisoft, OpenCV) | proved | from_xml of Agisoft and OpenCV over XML trees; re.findall by a backtracking matcher (CalibModel) | induction over trees; matcher lemmas for character classes |
| C108 | calibrations read from Camera Calibration Toolbox reports | proved | from_report of Matlab: search over the report text (CalibModel) | induction over the lines of a report: the pattern matches only the first statement of that name |
| C109 | calibrations read from PhotoModeler reports | proved | from_report of PhotoModeler (CalibModel) | the same, over sections |
| C11 | datetime_range is complete and evenly spaced | proved | `datetime_range` over Z | Euclidean division |
| C110 | resizing rasters and grids; value limits | proved | Raster.resize over scipy.ndimage.zoom with order 1, Grid.resize, zlim, box3d (ResizeModel) | the source coordinate of a cell lies between two cells of the axis; real arithmetic |
| C111 | grids of points in boxes and images | proved | box_to_grid in all modes, Camera.grid, box_to_polygon (MeshModel) | induction over the axes; the axis theorem of C19 |
| C112 | world lines as control: predicted points | proved | Lines._xyzs_to_uvs and predicted: split at points behind the camera, clip to the view, interpolate, nearest (LinesModel) | induction over clipped runs; arc length bounds chords; a segment in front of the camera projects to a segment |
| C113 | tiles of observers and cached images | proved | arrays as buffers and views; Image.read, extract_tile, shift_tile, cache_images, clear_images, subset on a shared store (ObserverModel) | the store refines ImageModel.read; invariant over all histories: what an image holds is its file at some size; writes to unheld buffers keep it |
| C114 | Iterative undistortion converges | proved | the passes of Camera._undistort_oulu (CameraModel), radial factor and tangential part as in the documented lens model | contraction about the undistorted point in the Euclidean norm; Lipschitz bounds of radial factor and tangential part |
| C115 | Images are matched in the computer's time zone | proved | datetime.timestamp in any time zone (an offset function), pairwise_distance_datetimes, Tracker.parse_datetimes and match_datetimes by timestamps (ZoneModel) | case analysis of mktime around a clock change; matching reduces to C40 on timestamps |
| C116 | Animations of observers show the tile around the point | proved | the frames update_plot of Observer.animate and Observer.track hand to matplotlib, plot_tile (AnimateModel, on ObserverModel and TemplateModel) | case analysis of box corners; snapping and tile_box lemmas of C42 |
| C117 | Camera.edges walks the frame clockwise in equal steps | proved | Camera.edges (CameraModel) | the four sides as one indexed walk; injectivity by sides |
| C118 | Animation of a track | proved | Tracks.animate: shown frames, scales, update_plot (TracksAnimateModel on ObserverModel and TemplateModel) | ascending shown times; inversion of update_plot; an ascending list below its length is 0, 1, 2, ... |
| C119 | Detected keypoints and root-normalised descriptors | proved | detect_keypoints: casts to bytes and root-normalised descriptors (DetectModel; the OpenCV detector is a parameter) | algebra of square roots; induction on rows |
| C12 | select_datetimes selects exactly the snapped nearest datetimes in range | proved | `select_datetimes` | reuse of C05 and C11 |
| C120 | Plots of reprojection errors show the selected points | proved | plots of reprojection errors of controls, polynomials, converters and cameras (PlotModel) | positions of an index; cases of the groups; field arithmetic of arrow ends; put_vectors |
| C121 | Plots of tracks show the selected tracks | proved | Tracks.plot_xy, plot_vxy, plot_v1d (TracksPlotModel on TracksModel) | columns of nested lists by index; option lookup |
| C122 | What Tracker.track returns | proved | Tracker.track: covariances, particles, weights, reductions and errors returned (TrackOutModel on TrackModel and ResampleModel) | simulation of the plain run, step by step; induction on times and tracks; sums for means and covariances |
| C123 | Rasters and grids that share memory | proved | memory shared between rasters and grids: new, grid, copy, parts, limits, cells, shift, resample (ShareModel: heaps of limits, coordinates and values) | ownership of buffers by families of objects and bounds of views, invariants by induction on histories; frame lemmas |
| C124 | Grids and rasters made from matrices of coordinates | proved | one axis of a grid made from a matrix: construction, shift, assignment of limits, reads of x and X (MatrixModel) | closed form of the state by induction on histories; invariant after limits are assigned |
| C125 | Files of objects: read back, and when a program is killed | proved | file system of directories and files; write_pickle, read_pickle, write_json, read_json as the states they pass through (FilesModel) | induction on paths and contents; invariant of file trees |
| C126 | Views depend on relative positions and directions only | proved | CameraModel: setters, R, projection, unprojection | rotation matrices composed (SightProofs), ring; the lens is the same function before and after |
| C127 | Undistortion by table lookup | proved | _undistort_lookup with griddata as a relation: any Delaunay triangle that holds the point (LookupModel) | empty circles: a table point in a triangle is one of its corners; convex hulls as half-planes, with a strict bound over the finite table |
| C13 | rasterize_points writes the mean of the points of each cell and nothing else | proved | grouping by sorted unique | list induction |
| C14 | compute_cdf / match_cdf laws | proved | `np.interp`, cumulative sums | list induction |
| C15 | Camera parameter vector, copy and reset | proved | heap of parameter arrays (CameraHeap) | invariant over histories of operations on any number of cameras |
| C16 | Camera constructor accepts exactly the documented argument combinations | proved | constructor as a function of optional arguments | case analysis |
| C17 | Camera rotation matrix is a proper rotation | proved | R as entries in sin/cos | ring with sin2_cos2 |
| C18 | Camera.Rprime is the derivative of Camera.R | proved | R, Rprime | derivable_pt_lim |
| C19 | Project / unproject round trip | proved | projection pipeline over R | field, rotation orthogonality |
| C20 | Points behind the camera never project | proved | projection with nan as None | depth is the sign of the third camera coordinate |
| C21 | Projection is invariant along rays | proved | same | field |
| C22 | Camera resizing is consistent and relative to the original size | proved | camera state machine | rounding lemmas; induction over resize sequences |
| C23 | k1-only undistortion solves the distortion cubic | proved | Cardano branch of `_undistort_k1` | algebra of the cubic, cube root by exp/ln |
| C24 | inframe points can be rasterized | proved | inframe, rasterize | floor arithmetic, index bounds |
| C25 | uv_to_xyz accepts per-point depths | proved | uv_to_xyz with scalar/list/array depths | case analysis on shapes |
| C26 | Grid cell/coordinate round trips | proved | Grid conversions (GridModel) | floor arithmetic |
| C27 | snap_xy returns the nearest grid feature in bounds | proved | snap_xy | rounding lemmas |
| C28 | crop covers the request and stays within the grid | proved | crop_extent, crop | floor/ceil arithmetic, list slices |
| C29 | Tiles cover the grid | proved | tile_indices, python slices | induction over breaks |
| C30 | Grid and raster coordinate caches are coherent | proved | caches on a heap of buffers (RasterModel) | invariants over histories; witnesses for stale caches |
| C31 | Raster.shift moves the raster by exactly the requested offsets | proved | shift on the same heap | execution of the state machine, aliasing case analysis |
| C32 | Data extent is tight | proved | data_extent | list induction |
| C33 | Raster time interpolation is bracketing, exact at nodes and affine between | proved | RasterInterpolant (InterpModel) | order reasoning, affine algebra |
| C34 | Viewshed visibility is line-of-sight with respect to preceding rings | proved | viewshed: rings, headings, periodic interp (ViewModel) | induction over rings, maximum angle invariant |
| C35 | Systematic and stratified resampling are unbiased up to one copy | proved | searchsorted as binary search (ResampleModel) | counting of drawn positions between cumulative sums |
| C36 | Residual resampling honours weights | proved | residual resampling | same |
| C37 | Particle weights stay a positive distribution | proved | update_weights for any non-negative exponential | list induction |
| C38 | Particle mean and covariance are the weighted statistics | proved | weighted statistics | finite sums |
| C39 | Tracking datetimes are strictly monotonic and matched | proved | parse_datetimes (TimeModel) | list induction |
| C40 | Image matching picks the nearest image within tolerance | proved | match_datetimes | argmin lemmas |
| C41 | Track output is confined to the observed interval and errors are contained | proved | the track loop as a fold with failing steps (TrackModel) | invariant over the loop |
| C42 | Template initialisation precedes use | proved | same, with a log of template events | invariant over the log |
| C43 | Observer construction enforces strictly increasing datetimes | proved | Observer constructor | list induction |
| C44 | Noise-free motion is exact kinematics | proved | motion models (MotionModel) | ring; the surface as sampled raster |
| C45 | Tracks summary accessors agree with the data | proved | Tracks accessors | list induction |
| C46 | Image.read is independent of cache state | proved | Image.read and its cache, GDAL a parameter (ImageModel) | invariant over histories |
| C47 | Image constructor falls back to Exif exactly when needed | proved | Image constructor | case analysis |
| C48 | Camera model conversions preserve projection | proved | external camera models (ConvertModel) | field; limits of polynomials for the necessity |
| C49 | SVG shapes: what is written is read back, and paths are read as SVG defines them | proved | SVG path grammar on character lists (SvgModel) | induction over commands |
| C50 | SVG transform texts are applied function by function | proved | transforms | induction over the text |
| C51 | Camera optimization parameter vector packing is a bijection | proved | packing by boolean masks on a heap of cameras (ParamsModel) | induction over masks and groups |
| C52 | RANSAC returns a consistent model | proved | ransac with shuffles as parameter (RansacModel) | loop invariant |
| C53 | Keypoint matching pairs are exactly those requested | proved | pair selection (MatcherModel) | list membership |
| C54 | Dropping images keeps matches aligned | proved | drop_images | list induction |
| C55 | Camera view box contains the view frustum | proved | viewbox | linear inequalities of the frustum |
| C56 | Spherical coordinates round trip | proved | spherical coordinates | trigonometry |
| C57 | Raster sampling is interpolation of the cells | proved | scipy interpolators (RasterModel) | interval search, affine algebra |
| C58 | RasterInterpolant honours the requested cell size | proved | cell size of RasterInterpolant | algebra |
| C59 | Resampling leaves the estimate unchanged | proved | resampling and statistics | finite sums |
| C60 | Splitting an Observer loses no image | proved | Observer.split/subset | induction over breaks |
| C61 | Observers without images in the tracked period do not matter | proved | the track loop | execution with an idle observer |
| C62 | Template matching geometry | proved | tile_box, search boxes (TemplateModel) | floor arithmetic |
| C63 | Motion models start and weigh particles as documented | proved | initialize_particles, likelihoods | case analysis |
| C64 | Projection is the documented lens model | proved | distortion formulas | equality with the documented formula |
| C65 | Camera parameter selections and bounds | proved | parse_params | list induction |
| C66 | Jacobian sparsity omits no dependency | proved | _build_sparsity | dependency argument over masks |
| C67 | Control weights are relative | proved | weights | algebra |
| C68 | Keypoint files are complete and resumable | proved | build_keypoints with files and interruptions | invariant over interrupted runs |
| C69 | Match files are complete and resumable | proved | build_matches with files and interruptions | invariant over interrupted runs |
| C70 | Matched keypoints satisfy every requested criterion | proved | match_keypoints | list filters |
| C71 | Match counts and breaks | proved | match counts | finite sums |
| C72 | SVG files are read into image coordinates | proved | svg.read on trees | induction over the tree |
| C73 | Control points and matches follow the image size of their cameras | proved | Points, Lines, Matches and shared cameras (ControlModel) | invariant over histories of resizes |
| C74 | Matches of true image points have zero residuals, whichever type of matches is used | proved | the four kinds of matches | round trips of projection |
| C75 | Matches.filter keeps exactly the pairs that meet every limit | proved | Matches.filter | list filters and permutations |
| C76 | Image.project shows what the other camera would see | proved | Image.project (ProjectModel) | composition of projection round trip and interpolation |
| C77 | Metadata values are those stored | proved | Exif accessors (ExifModel) | regular-expression matching, division |
| C78 | Exif.dump encodes exactly the tags, or refuses | proved | Exif.dump | induction over tags |
| C79 | Circles of grid cells lie on the circle | proved | bresenham_circle (CircleModel) | the array is written position by position; loop invariant for the error term, octant heights, then the filter |
| C80 | Raster.fill_circle fills the circle and nothing else | proved | Raster.fill_circle (CircleModel) | row extents of the path of C79; the row where the octant first steps down loses its right end |
| C81 | Points at given distances along a line | proved | interpolate_line (LineModel) | segment search of numpy.interp, reversal of falling lines via uniqueness of sorted permutations, linspace |
| C82 | Tiles do not depend on exposure | proved | normalize, extract_tile (TileModel), median filter as parameter | affine invariance of mean and deviation; ranks are invariant under increasing maps, so is histogram matching |
| C83 | Gaussian filter with excluded cells | proved | gaussian_filter with mask (FilterModel), scipy weights as parameter | sums of included terms; convexity |
| C84 | Maximum filter with excluded cells and filled crevasses | proved | maximum_filter with mask, fill_crevasses (FilterModel), windows as parameter | fold of maximum characterised as greatest included value |
| C85 | Constructed camera models are consistent, and inconsistent ones are rejected | proved | Cameras.__init__, _test, prune_controls (BuildModel) | boolean tests reflected to propositions; consistency read off the loops of update_params |
| C86 | Names, start values and bounds of the optimised parameters | proved | update_params, camera_bounds, labels, lmfit.Parameters.add (BuildModel, ParamsModel) | blocks of the dictionary by induction over groups and cameras; distinct labels by injectivity of decimals; tightest bounds by induction |
| C87 | Cameras written to JSON read back the same | proved | getattr, to_dict, from_json and the constructor over numbers with nan and infinities (CameraJsonModel) | lookup in written documents by induction over the attributes; slices of the vector; agreement with the constructor of C16 |
| C88 | Subsets of a raster by indexing | proved | Raster.__getitem__ and the slices of Python | arithmetic progressions, axis algebra |
| C89 | Images of elevation models | proved | Camera.project_dem over any order of tiles (DemModel) | each tile by C88 and rasterize_points; induction over the order of completion |
| C90 | Test for reversible distortion | proved | Camera.reversible (ReversibleModel) | samples of linspace; intermediate value theorem along a path of pairs |
| C91 | Undistortion by regula falsi | proved | Camera._undistort_regulafalsi, one point (ReversibleModel) | induction over iterations |
| C92 | Horizon of a raster | proved | Raster.horizon (HorizonModel; vocabulary in HorizonSpec) | ray exit from C09, line from C01, runs from C03, nanargmax by induction |
| C93 | Rasters in files | proved | Raster.open, read, array, size, Grid.read (RasterFileModel, on ImageModel.gdal_read) | crop extent from C28; invariant over histories: nothing or the full picture is cached |
| C94 | Gradients and illumination of rasters | proved | Raster.gradient and hillshade (GradientModel) | mean value theorem on difference quotients; trigonometry of the light direction |
| C95 | Orienting the cameras of an observer | proved | ObserverCameras: set, reset, objective and gradient, fit with any optimiser (OrientModel) | sums over anchors and matches; derivatives of rotations (C17) and absolute values; invariant over evaluations: cameras differ in view directions only |
| C96 | fitting cameras leaves them as they were | proved | Cameras.fit with iterations and any optimiser (FitModel on ParamsModel and BuildModel) | residuals restore , so minimisation does; reset after iterations; computed counterexamples |
| C97 | sampling on a grid and resampling | proved | sample(grid=True) of order 1 with its changes to the array in place, and resample (GridSampleModel on RasterModel) | the array heap before and after is equal; surface = bilinear combination of bracketing cells (C57); weights sum to 1; computed 2 x 2 counterexamples |
| C98 | rasterizing points and polygons | proved | Raster.rasterize, rasterize_polygons, polygons_to_mask, GDAL burning as even-odd rule (RasterizeModel) | cell of a point from snapping (C26) and means (C13); crossings are preserved by the change of coordinates, and the number of sides across a line is even (parity of changes along a closed list), so that left and right rays agree |
| C99 | names of images and extensions of files | proved | strip_path, image base names, splitext (PathModel) | last component and splitting at dots by induction on the string |

No property is judged inexpressible. What each theorem leaves out is in the `note` of MANIFEST.json.

## Findings (machine-checked `_refuted` theorems)

* `format_list_argument_unchanged_refuted` (P_Helpers.v): the caller's own list object is modified when it is extended.
* `sorted_nearest_singleton_refuted` (P_Helpers.v): with a single element the function may fail.
* `ray_box_entry_refuted` (P_Helpers.v): Findings: entry is nan although the origin is outside; exit is nan although the ray hits.
* `ray_box_exit_refuted` (P_Helpers.v): As above: exit is nan although the ray meets the box.
* `select_datetimes_singleton_refuted` (P_Helpers.v): a single datetime with a snap interval fails.
* `camera_infront_correction_refuted` (P_Camera.v): ... but infront ignores the corrections
* `camera_resize_force_refuted` (P_Camera.v): force=True with a fractional size rounds the image size but not f and c
* `camera_resize_target_size_refuted` (P_Camera.v): the size check rounds half to even but the size is then rounded half up: with original size (5, 10) and factor 1/2, target (2, 5) is accepted as (3, 5
* `camera_k1_undistort_refuted` (P_Camera.v): points on the vertical axis of the camera frame collapse to the center
* `camera_rasterize_refuted` (P_Camera.v): inframe includes the right and bottom border, whose points rasterize rejects with IndexError.
* `camera_unproject_depths_refuted` (P_Camera.v): uv_to_xyz with a numpy array of depths (as documented) raises for every length above one.
* `grid_tiles_overlap_refuted` (P_Grid.v): Without the bound on the overlap the property is false: an overlap equal to the tile size can give a negative slice start, which Python counts from the end, and cells are left out of every tile.
* `grid_caches_refuted` (P_Raster.v): Setting the size after the coordinates were read returns the old coordinates.
* `raster_caches_refuted` (P_Raster.v): [shift(1)] after a sample moves the coordinates x by 2 (the limits by 1).
* `raster_sample_stale_refuted` (P_Raster.v): but setting the limits after a sample leaves the interpolator at the old coordinates: the center of cell (0, 0), value 0, is sampled as 1
* `raster_shift_y_after_sample_refuted` (P_Raster.v): After a two-dimensional sample: a shift of y without z always raises, having already moved part of the raster, ...
* `raster_shift_refuted` (P_Raster.v): ... and a shift of x alone moves the sampled values twice as far: the value at the center of the first cell is no longer found there
* `interpolant_at_node_refuted` (P_Interp.v): At a node the property is false: the same raster is taken on both sides and 0 / 0 makes every cell nan (numbers) or raises (datetimes).
* `interpolant_cell_size_refuted` (P_Interp.v): The scale is inverted: asking for cells m times larger gives cells m times smaller.
* `viewshed_origin_refuted` (P_View.v): the cells of ring 0 - among them the cell the viewer stands in - are reported as not visible, whatever their elevation, as soon as the raster has any other cell
* `resample_systematic_zero_draw_refuted` (P_Resample.v): the boundary draw u = 0 always copies the first particle, even one of weight zero
* `resample_residual_refuted` (P_Resample.v): the remaining draws are not in proportion to n share - floor (n share). When the first particle is due two or more copies and no other is due one, every remaining draw, whatever it is, copies the first particle: all others are lost, however large their residuals.
* `resample_double_weight_refuted` (P_Resample.v): C59: resampling should leave the estimate unchanged when copies are exactly proportional to weights. the weights are kept with the resampled particles, so they count twice: the mean reported after resampling is the mean weighted by the squared weights.
* `observer_split_int_refuted` (P_Time.v): when the rounded segment length does not divide the duration, the last image is in no segment; if it was rounded up, fewer than n segments are returned.
* `track_unobserved_refuted` (P_Track.v): C41: when no observer used by the track ever has a matching image, the track should be empty. every time is filled (or the error stops it) although nothing was observed.
* `cylindrical_motion_at_rest_refuted` (P_Motion.v): ... but a particle at rest, such as every particle of the default vrthz = (0, 0, 0), becomes nan, even when the acceleration is zero: the claim "exact kinematics" is false there.
* `cylindrical_motion_turning_refuted` (P_Motion.v): ... and turning at a constant rate without radial acceleration is not an exact turn: the speed grows with every step (forward and backward), so steps neither compose nor reverse.
* `motion_default_dem_sigma_refuted` (P_Motion.v): dem_sigma=None, the default of CartesianMotion, CylindricalMotion and TangentCylindricalMotion, raises
* `motion_scalar_dem_refuted` (P_Motion.v): A number as surface is only defined on the unit square: elsewhere initialization raises.
* `template_sampling_outside_nodes_refuted` (P_Template.v): Near the edge of the cloud of particles the SSE is read outside its nodes (where scipy returns the value at the nearest node): if the particles spread by at least the spline's degree, exactly if the subpixel offset of the template exceeds the distance from the edge of the template around the first particle to the whole pixel below, or from the edge around the last one to the whole pixel above.
* `image_read_uncached_refuted` (P_Image.v): Otherwise (the camera was resized, or the cached picture is from before a resize) the array has the size of the whole camera image instead of the size of the box.
* `image_read_shared_refuted` (P_Image.v): The array returned by a caching read is the cached one: after writing into it (here: replacing it by [p'] of the same size), the next read gives what was written.
* `image_f_argument_refuted` (P_Image.v): a focal length in pixels does not override the metadata's focal length; the constructor raises ...
* `image_missing_size_refuted` (P_Image.v): ... an image size is not taken from the metadata when focal length in millimetres and sensor size are given ...
* `image_bad_metadata_refuted` (P_Image.v): ... and metadata without an image size, like a focal length recorded as 0/0, does not give the expected error: the camera silently has no size, and the constructor raises ZeroDivisionError.
* `cameras_ungrouped_refuted` (P_Params.v): Parameters of a camera that is in no group are ignored by set_cameras.
* `cameras_overlap_refuted` (P_Params.v): A parameter selected both for a group and for its camera: the camera entry has no effect.
* `cameras_predicted_error_refuted` (P_Params.v): When a control raises during predicted(), the cameras are left changed.
* `params_selection_refuted` (P_Params.v): Findings: False selects the first element; an index outside the attribute selects a parameter of another attribute; bounds without a selection are given to the parameters of the attribute before.
* `convert_index_refuted` (P_Convert.v): a single index, documented as "first element" and so on, either raises or is ignored.
* `photomodeler_cancel_refuted` (P_Convert.v): PhotoModeler optimises although the conversion is exact when the radial terms cancel.
* `convert_grid_refuted` (P_Convert2.v): long and narrow images make the default number of points an error.
* `ransac_inliers_refuted` (P_Ransac.v): The final refit may have fewer inliers than required.
* `ransac_samples_refuted` (P_Ransac2.v): with n = 0 there is one (empty) sample; the samples never end when two or more iterations are requested.
* `matching_empty_seq_refuted` (P_Matcher.v): An empty seq raises.
* `matching_imgs_refuted` (P_Matcher.v): Documented: imgs: "Index of images to require at least one of in each matched image pair". Only the later image of the pair is looked at: no earlier image is matched to an image that is not in imgs.
* `build_matches_shape_refuted` (P_Matcher2.v): The matrix of matches is not (n, n).
* `build_matches_none_refuted` (P_Matcher2.v): If no pair is selected the call fails, after clearing the keypoints.
* `build_matches_partial_file_refuted` (P_Matcher2.v): 
* `build_matches_clear_filter_refuted` (P_Matcher2.v): Documented: filter is "ignored if clear_matches=True": the call fails.
* `build_matches_names_refuted` (P_Matcher2.v): Images with distinct file names can share one match file (names are joined with a dash), so matches of one pair are read as those of another.
* `drop_images_others_refuted` (P_Matcher3.v): Claimed: drops the given images. It also drops every image without matches, even if no image is given.
* `drop_images_keypoints_refuted` (P_Matcher3.v): The keypoints are not dropped with their images, so keypoints[i] is no longer that of images[i]: matching again takes them for those of other images.
* `match_breaks_min_refuted` (P_Matcher3.v): With min_matches the call fails as soon as matches start from two different images.
* `build_keypoints_partial_file_refuted` (P_Matcher4.v): An incomplete file, left by a crash while writing, makes the next run fail (unless keypoints are cleared: then it is kept as if complete).
* `build_keypoints_overwrite_refuted` (P_Matcher4.v): Documented: overwrite: "Whether to recompute and overwrite existing file or in-memory keypoints". Keypoints on file but not in memory, or in memory but not yet on file, are kept.
* `match_keypoints_none_left_refuted` (P_Matcher4.v): When a limit on the distance is given and no match is left before it is applied, the call fails.
* `match_keypoints_same_descriptor_refuted` (P_Matcher4.v): When the second best descriptor of a mutual match equals the first image's, ratios fail.
* `match_keypoints_zero_refuted` (P_Matcher4.v): A limit of 0 is no limit.
* `path_short_refuted` (P_Svg.v): A shape of fewer than two points is written as a lone Z, which cannot be read back.
* `path_two_subpaths_refuted` (P_SvgPath.v): A path of two subpaths, the second closed, is read as SVG defines it only if both start at the same point.
* `path_second_subpath_refuted` (P_SvgPath.v): 
* `path_leading_space_refuted` (P_SvgPath.v): Any path of at least two commands that begins with a space loses its first points silently, or fails: every command gets the parameters of the one before it.
* `path_adjacent_refuted` (P_SvgPath.v): 
* `transform_order_refuted` (P_Svg2.v): A translation followed by a scale: the text has its SVG meaning for some point only if the scale is 1 or the translation 0, and then for all.
* `transform_space_refuted` (P_Svg2.v): A space before the parenthesis, allowed in SVG, makes a function be ignored without an error.
* `group_transform_order_refuted` (P_Svg3.v): An element with a scale in a group with a translation: read() moves it before scaling it, so it is where SVG puts it only if the scale is 1 or the translation 0.
* `rotation_xy_only_refuted` (P_Control2.v): "image coordinates may be discarded" -- without image coordinates, RotationMatchesXY cannot be constructed.
* `rotation_filter_refuted` (P_Control3.v): Refuted for the other types: filtering RotationMatches drops image coordinates but not the camera coordinates used for predictions, which no longer correspond: what is observed are the pairs that meet the limits, what is predicted are all the pairs as before.
* `rotation_xy_filter_refuted` (P_Control3.v): As above.
* `rotation_resize_refuted` (P_Control3.v): Refuted for RotationMatches, which inherits resize: it raises after it has resized the first camera.
* `project_integers_refuted` (P_Project.v): with images of integers, pixels outside the source image cannot be told: there is no nan, and linear interpolation is truncated, not rounded.
* `exif_iso_pair_refuted` (P_Exif.v): the tag may have several values; two film speeds give their quotient.
* `ray_box_face_miss_refuted` (P_Ray2.v): in three dimensions such a ray may be reported to leave a box that it misses.
* `clip_polyline_box_refuted` (P_Clip.v): The crossing vertex is lost when the inside vertex lies on the boundary.
* `grid_size_stale_refuted` (P_Raster4.v): FINDING: coordinates that were read before the size is set are those of the old size ever after: for every grid, whatever the new size.
* `track_idle_default_refuted` (P_Track3.v): without observer masks the first tracked time always has an image, so one observer without images makes every track fail.
* `circle_connected_refuted` (P_Circle.v): C79, refuted: the path of no circle of radius 2 or more is connected (that of smaller circles is
* `fill_circle_inside_refuted` (P_Circle.v): C80, refuted: circles of radius 2 or more (in cells) have holes: a whole row within the circle, but for its first cell, is never filled
* `line_fill_refuted` (P_Line.v): C81, refuted: for falling distances the two fill values are exchanged: distances beyond x[0] get the value documented for those beyond x[-1]
* `line_step_refuted` (P_Line.v): C81, refuted: for a dx that does not divide the length, the ends are not always included: no point for a dx of more than twice the length, the first vertex only for a dx between 2/3 and 2 times the length; otherwise the points are further apart than dx
* `gaussian_integer_refuted` (P_Filter.v): C83, refuted: for integer arrays, whose averages scipy truncates, included cells near excluded ones get nan or inf
* `maximum_infinite_refuted` (P_Filter.v): C84, refuted: included cells below that number (-inf) next to an excluded cell become this number, not the greatest of them
* `params_start_refuted` (P_Build.v): C86, refuted: the optimiser does not start from a camera whose parameters are beyond the default bounds (here k1 = 2 > f / 4000): setting the cameras to the initial parameters changes this camera
* `cameras_set_short_refuted` (P_Params3.v): 
* `camera_json_null_refuted` (P_CameraJson.v): Findings: null (or an empty array) does not stand for the default of k, p, xyz and viewdir, but for nan; elevation corrections can be written but not read, even if they are overridden.
* `camera_json_correction_refuted` (P_CameraJson.v): 
* `raster_getitem_pair_refuted` (P_Getitem.v): if exactly two columns are selected with a negative step, the result is wrong: step -1 raises ValueError (both limits are the edge between the two columns), and other steps give other centers.
* `raster_getitem_shift_refuted` (P_Getitem.v): the x-coordinates of a subset of three columns or more share the memory of those of the raster: shifting the subset moves the coordinates of the selected columns in the raster, which are then not the centers of its cells.
* `project_dem_tiles_refuted` (P_Dem.v): a pixel seen by several tiles gets the mean of the last tile only, so that the image depends on the tiles and, in parallel, on the order in which they are done. In the example, the values 1 and 3 give 2 with one tile, 1 or 3 with tiles of one cell.
* `project_dem_depth_scaled_refuted` (P_Dem2.v): FINDING: the depth alone (values missing) cannot be projected at other scales than 1, although scale_limits other than (1, 1) ask for it: the code that rescales the values of a tile raises UnboundLocalError.
* `reversible_corner_refuted` (P_Reversible.v): 
* `regulafalsi_axis_refuted` (P_Reversible.v): points on an axis of the image are not undistorted: without tangential distortion the residual of the other coordinate is always zero, the iteration stops at once and returns half of the distorted coordinate.
* `horizon_border_refuted` (P_Horizon.v): from an origin inside a cell on the eastern border, a heading of 90 degrees (the default headings contain it) raises ValueError, whatever the elevations.
* `horizon_outside_refuted` (P_Horizon.v): from a position outside the raster it always raises.
* `raster_read_box_first_refuted` (P_RasterFile.v): reading a box with caching (the default) while nothing is cached caches the box as if it was the whole raster, of which the limits stay, and returns the part of it that the box denotes: too small, unless the box starts at the top left.
* `raster_read_finer_refuted` (P_RasterFile.v): with a target cell size, an uncached read of a box that covers less than one cell of the file in x fails.
* `raster_nodata_zero_refuted` (P_RasterFile.v): a no-data value of zero is not replaced by nan, although the raster is float: the cells are those of the file.
* `grid_read_refuted` (P_RasterFile.v): Grid.read sets the limits of the crop but keeps the size of the file, whatever the target cell size: the cells of the grid are smaller than those of the file if the crop leaves any out.
* `hillshade_mirrored_refuted` (P_Gradient.v): the surface is shaded as if the light was at azimuth 180 - azimuth: the slope in y enters with the wrong sign, for either orientation of the raster. [p], [q]: the gradients in x and y.
* `hillshade_south_face_refuted` (P_Gradient.v): A plane that faces south, away from a light in the north at 45 degrees, is shown fully lit (1), where 0 is right.
* `orient_fit_interrupted_refuted` (P_Orient.v): if the optimiser is interrupted or raises, the cameras keep the directions evaluated last.
* `orient_gradient_refuted` (P_Orient.v): the gradient returned is not the gradient of the objective. Two cameras that look north and one match, seen at (1, 1) by the first and (0, 0) by the second: the derivatives by yaw are PI / 90 / sqrt 3 and - PI / 180; PI / 90 and - PI / 90 are returned.
* `fit_iteration_size_refuted` (P_Fit.v): 
* `fit_round_shared_refuted` (P_Fit.v): What an iteration does to groups, for every optimiser: it takes all cameras for one group, so that (if the optimiser succeeds) every parameter selected for the group, and for neither of two cameras, ends up with the same value in both, whatever groups the object was made with.
* `fit_iteration_groups_refuted` (P_Fit.v): 
* `grid_sample_extrapolate_refuted` (P_GridSample.v): ... finding: with fill_value = None values are not extrapolated, as documented: the value is that at the nearest point within the limits
* `grid_sample_unsorted_refuted` (P_GridSample.v): coordinates that neither increase nor decrease are refused, and the raster is left with the lowest number in place of nan
* `grid_sample_all_nan_refuted` (P_GridSample.v): a raster of nan gives the lowest number and not nan
* `grid_sample_border_refuted` (P_GridSample.v): ... values below the lowest cell become nan, although the raster has no nan
* `grid_sample_huge_refuted` (P_GridSample.v): ... and next to a nan cell the sample is huge: half the lowest number, with the other sign
* `grid_sample_row_refuted` (P_GridSample.v): with a single row (or column), the samples are of shape (n, n) for n coordinates along the other axis, whatever the number of coordinates across
* `grid_sample_column_refuted` (P_GridSample.v): 
* `rasterize_nan_refuted` (P_Rasterize.v): the documentation says that pixels without points are NaN; they keep the values of the raster.
* `rasterize_integer_refuted` (P_Rasterize.v): and the result is not always an array of floats with the means: in a raster of integers the means are truncated.
* `image_names_dots_refuted` (P_Path.v): Names that agree up to a first dot of both are refused, whatever follows it.
* `grid_copy_tuple_refuted` (P_Eq.v): a grid made with a tuple as size (as documented) cannot be copied.
* `raster_nan_refuted` (P_Eq.v): a raster with a nan value is not equal to any raster of its size, not to its copy and not to itself.
* `raster_broadcast_refuted` (P_Eq.v): rasters of different sizes can be equal: a raster of one cell is equal to every raster with the same limits all of whose cells have its value.
* `raster_transitive_refuted` (P_Eq.v): so that equality is not transitive.
* `write_sibling_refuted` (P_SvgDoc.v): so that the element that follows a group is not indented below the first one but to the left of it: at the first level, not at all.
* `braces_refuted` (P_SvgDoc2.v): braces and what is between them are removed not only from names but also from values, so that e.g. names of annotations change when they are read, and can become equal.
* `flat_strings_refuted` (P_FlatJson.v): FINDING: strings in arrays lose their blanks, and get one after each comma
* `flat_nested_refuted` (P_FlatJson.v): FINDING: arrays of arrays are not flattened to a line
* `flat_indent_refuted` (P_FlatJson.v): FINDING: an indent is required
* `scale_radial_refuted` (P_Scales.v): the radial factors are too large by powers of two: their changes displace points at the mean radius by less than a pixel
* `scale_position_refuted` (P_Scales.v): the distance used is the root of the sum of squared distances, so with [n] world points at the same distance, moving the camera by the factor displaces a point by the root of [n], not by one pixel
* `matches_parallel_clear_refuted` (P_Pool.v): Finding. Documented: clear_keypoints "Whether to clear keypoints from memory once all matches are computed for an image". With processes nothing is cleared: the keypoints that were in memory before are still there at the end.
* `track_parallel_random_refuted` (P_Pool2.v): Finding. Processes start with copies of the same random generator: if there are as many workers as tracks, it can happen that every track is computed with the same random numbers; then tracks of equal motion models are equal, although a run without workers draws them independently.
* `track_threads_refuted` (P_Pool2.v): Finding. With threads the particles of the tracker are shared: a track can report the particles of another.
* `opencv_xml_exponent_refuted` (P_CalibXml2.v): Numbers written with a capital E are read as two numbers, without any error
* `matlab_report_name_refuted` (P_CalibMatlab.v): Names need only end with the key: a statement about another variable, or one that is commented out, is read if it comes first
* `matlab_report_line_refuted` (P_CalibMatlab.v): Two statements on a line: the value reaches to the last semicolon
* `photomodeler_heading_refuted` (P_CalibPm.v): The labels are searched in the whole heading: "K1" is also found in the heading "Camera K10", and its value read. Numbers with a capital E are cut off before it.
* `resize_plane_refuted` (P_Resize.v): 
* `resize_nan_refuted` (P_Resize.v): NaN spreads even if nothing is resized: with scale 1, a NaN cell makes the cells above, to the left and above left of it NaN too.
* `resize_grid_refuted` (P_Resize.v): Grid.resize rounds halves up, Raster.resize to even: a raster and its grid resized by the same scale have different sizes when the size would be an even number and a half.
* `lines_crossing_refuted` (P_Lines.v): 
* `lines_short_refuted` (P_Lines.v): a line in the frame whose image is shorter than half a step gives no point at all; alone, it makes the prediction fail.
* `observer_shift_cached_refuted` (P_Observer2.v): shift_tile writes its result into its argument, and a tile extracted with caching is a view of the cached image. After any history as in observer_tiles, shifting a tile just extracted with caching returns the shifted tile and changes the image: every tile extracted from then on with caching shows the shifted pixels where it overlaps the box and the picture elsewhere -- until clear_images, after which the picture is read from the file again. What the other images hold does not change.
* `scale_denominator_refuted` (P_ScalesMean.v): 
* `zone_gap_refuted` (P_Zone.v): C115 finding: where clocks go forward by h seconds, every pair of images h apart with the first at a local time that is skipped is confused: asked for the second, exactly (maxdt = 0), the tracker takes the first, though the second has the requested datetime, and a requested time with no image counts as having one
* `zone_fold_refuted` (P_Zone.v): C115 finding: where clocks go back by h seconds, an image from before the repeated hour ends and a requested time from after are taken to be h further apart than they are: no match when maxdt is between their difference and h more
* `animate_cached_refuted` (P_Animate.v): C116 finding: animate raises TypeError at every such frame if the observer caches its images (the default), because the array is sliced by floats
* `animate_view_refuted` (P_Animate.v): C116: the view of each frame spans the tile's width, but (finding) from half a width above the point to half a height below it: the tile's height exactly for square tiles
* `track_frames_refuted` (P_Animate.v): C116 findings: frames given as a list (not an array) raise IndexError at every frame; and when there are more frames than positions the later frames show the last position
* `plot_tile_box_refuted` (P_Animate.v): C116: tiles are plotted in their box; finding: a tile without a box is plotted with width and height exchanged
* `camera_edges_long_refuted` (P_Edges.v): 
* `tracks_animate_gaps_refuted` (P_TracksAnimate.v): C118 finding: the scales are looked up by the time, not by the number of the frame. So an animation is drawn to its end only if the frames are the times 0, 1, 2, ... without a gap; each other one ends with an error; and the frame of time i has the scale of the i-th shown step
* `tracks_animate_index_refuted` (P_TracksAnimate.v): the frames that fail, and the error: those at times not below the number of frames
* `tracks_animate_tracker_refuted` (P_TracksAnimate.v): C118 finding: without a tracker no frame can be drawn
* `detect_bytes_refuted` (P_Detect.v): 
* `matches_plot_xy_refuted` (P_Plot.v): RotationMatchesXY and RotationMatchesXYZ mean to say that they cannot be plotted (NotImplementedError), but their method cannot even be called.
* `poly_plot_refuted` (P_Plot.v): With the default index all points are selected, so that a plot always fails.
* `converter_plot_incoming_refuted` (P_Plot.v): "Quivers point from xcam image coordinates to cam image coordinates": for an incoming distortion model they start at a point of cam instead. Whenever the inversion in cam is exact, an arrow starts at the image of the point in xcam only if it has no length.
* `cameras_plot_error_refuted` (P_Plot.v): When a control cannot be plotted, the cameras are not set back.
* `cameras_plot_array_refuted` (P_Plot.v): "Other values [of index] are only supported for a single control": arrays of two or more elements are not supported for a single control either.
* `tracks_plot_empty_refuted` (P_TracksPlot.v): "arguments to pyplot.plot (dict)": an empty dictionary of arguments is taken as False.
* `tracks_plot_start_refuted` (P_TracksPlot.v): "starting x, y": a track that starts later, after times without a position, has no start in the plot, whatever its first position is (compare Tracks.endpoints).
* `track_output_sizes_refuted` (P_TrackOut.v): C122: tracks from motion models of any numbers of particles can be returned with their particles. if the numbers differ the particles cannot be stacked, and ValueError is raised when every track has been made.
* `track_output_reduce_refuted` (P_TrackOut.v): C122: an error of the reduction of one track is kept with this track. it ends the call, so that the results of all tracks are lost; this includes tracks which stopped early, whose particles are missing.
* `track_output_rebuild_refuted` (P_TrackOut.v): C122: an error in one of several tracks is kept with this track. not if its class cannot be made from a text alone (UnicodeDecodeError, for example): then the call fails, and the results of all tracks are lost.
* `share_grid_shift_refuted` (P_Share2.v): But it does not move the coordinates of the other, if they were read before: then they are not those of its limits.
* `share_sub_shift_refuted` (P_Share3.v): Then shifting k[i, j] moves the selected coordinates of k, but not the limits of k.
* `share_resample_shift_refuted` (P_Share4.v): Shifting either of them then moves the coordinates of the other.
* `matrix_shift_refuted` (P_Matrix.v): Shifting moves the limits, and all lines of X but the first, once; x and the first line of X, which are the same array, twice.
* `matrix_two_refuted` (P_Matrix.v): A matrix with lines of two coordinates: they are taken for the limits (not half a cell beyond), so x, when read, is not the first line of X; and limits are moved twice.
* `pickle_lost_refuted` (P_Files.v): FINDING: a file is emptied before it is written. If the program is killed then, or the object cannot be pickled, what the file held is lost.
* `pickle_text_refuted` (P_Files.v): FINDING: with binary=False (and no gzip) nothing can be written: TypeError, and an empty file in place of the old one; nor can any file be read.
* `json_lost_refuted` (P_Files.v): FINDING: as for pickles, the file is emptied first.
* `lookup_barrel_refuted` (P_Lookup.v): 

Also: the constructor of Camera repeats a scalar cmm while the cmm setter pads it with 0 (C16).


## What `Print Assumptions` lists for each theorem

Letters: **N** `ClassicalDedekindReals.sig_not_dec`, **S** `ClassicalDedekindReals.sig_forall_dec`, **F** `FunctionalExtensionality.functional_extensionality_dep`,
**C** `Classical_Prop.classic`; all four are axioms of Coq's standard library (Reals and Logic). `-` = closed under the global context.
The `Print Assumptions` commands are in the files, below the theorems.

| property | theorem | file | axioms |
|---|---|---|---|
| C01 | bresenham_line_path | P_Helpers.v | - |
| C02 | bresenham_line_symmetric | P_Helpers.v | - |
| C03 | boolean_split_lossless_maximal | P_Helpers.v | - |
| C04 | format_list_contract | P_Helpers.v | - |
| C04 | format_list_none | P_Helpers.v | - |
| C04 | format_list_argument_unchanged_refuted | P_Helpers.v | - |
| C05 | sorted_nearest_is_nearest | P_Helpers.v | SF |
| C05 | sorted_nearest_singleton_refuted | P_Helpers.v | SF |
| C06 | intersect_boxes_greatest | P_Helpers.v | SF |
| C06 | intersect_boxes_odd_raises | P_Helpers.v | SF |
| C07 | bounding_box_tightest | P_Helpers.v | SF |
| C07 | bounding_box_in_box | P_Helpers.v | SF |
| C08 | box_to_grid_exact | P_Helpers.v | SF |
| C09 | ray_box_slab | P_Helpers.v | SF |
| C09 | ray_box_lower_face | P_Ray2.v | SF |
| C09 | ray_box_upper_face | P_Ray2.v | SF |
| C09 | ray_box_flat_face | P_Ray2.v | SF |
| C09 | ray_box_entry_refuted | P_Helpers.v | SF |
| C09 | ray_box_exit_refuted | P_Helpers.v | SF |
| C09 | ray_box_face_miss_refuted | P_Ray2.v | SF |
| C10 | clip_polyline_box_exact | P_Clip.v | SF |
| C10 | clip_polyline_box_interior | P_Clip.v | SF |
| C10 | clip_polyline_box_refuted | P_Clip.v | SF |
| C100 | driver_from_path | P_Write.v | - |
| C100 | write_refused | P_Write.v | S |
| C100 | write_file | P_Write.v | S |
| C100 | image_write_file | P_Write.v | S |
| C100 | write_crs_refuted | P_Write.v | S |
| C100 | write_open_round_trip | P_Write.v | SCF |
| C100 | write_nan_refuted | P_Write.v | SF |
| C101 | grid_equality | P_Eq.v | SF |
| C101 | grid_copy_equal | P_Eq.v | SF |
| C101 | grid_copy_tuple_refuted | P_Eq.v | SF |
| C101 | raster_equality | P_Eq.v | SF |
| C101 | raster_symmetric | P_Eq.v | SF |
| C101 | raster_copy_equal | P_Eq.v | SF |
| C101 | raster_nan_refuted | P_Eq.v | SF |
| C101 | raster_broadcast_refuted | P_Eq.v | SF |
| C101 | raster_transitive_refuted | P_Eq.v | SF |
| C101 | raster_grid_spec | P_Eq.v | SF |
| C102 | write_content | P_SvgDoc.v | - |
| C102 | write_layout | P_SvgDoc.v | - |
| C102 | write_sibling_refuted | P_SvgDoc.v | - |
| C102 | annotations_round_trip | P_SvgDoc2.v | SF |
| C102 | read_errors | P_SvgDoc2.v | SF |
| C102 | svg_attributes | P_SvgDoc2.v | - |
| C102 | braces_refuted | P_SvgDoc2.v | - |
| C103 | flat_same | P_FlatJson.v | - |
| C103 | flat_layout | P_FlatJson.v | - |
| C103 | flat_negative | P_FlatJson.v | - |
| C103 | flat_strings | P_FlatJson.v | - |
| C103 | flat_strings_refuted | P_FlatJson.v | - |
| C103 | flat_nested_refuted | P_FlatJson.v | - |
| C103 | flat_indent_refuted | P_FlatJson.v | - |
| C104 | scales_positive | P_Scales.v | SNCF |
| C104 | mean_radius | P_ScalesMean.v | SNCF |
| C104 | mean_radius_any | P_ScalesMean.v | SNCF |
| C104 | scale_center | P_Scales.v | SNCF |
| C104 | scale_imgsz | P_Scales.v | SNCF |
| C104 | scale_focal | P_Scales.v | SNCF |
| C104 | scale_tangential | P_Scales.v | SNCF |
| C104 | scale_radial_refuted | P_Scales.v | SNCF |
| C104 | scale_denominator_refuted | P_ScalesMean.v | SNCF |
| C104 | scale_roll | P_Scales.v | SNCF |
| C104 | scale_yaw | P_Scales.v | SNCF |
| C104 | scale_pitch | P_Scales.v | SNCF |
| C104 | seen_points | P_Scales.v | - |
| C104 | scale_position | P_Scales.v | SNCF |
| C104 | scale_position_refuted | P_Scales.v | SNCF |
| C104 | model_scales | P_Scales.v | SNCF |
| C105 | keypoints_parallel | P_Pool.v | - |
| C105 | keypoints_parallel_result | P_Pool.v | - |
| C105 | matches_parallel | P_Pool.v | - |
| C105 | matches_parallel_files | P_Pool.v | - |
| C105 | matches_parallel_resume | P_Pool.v | - |
| C105 | matches_parallel_clear_refuted | P_Pool.v | - |
| C105 | assign_arrived_order | P_Pool.v | - |
| C105 | pool_each_once | P_Pool.v | - |
| C106 | track_parallel | P_Pool2.v | - |
| C106 | track_parallel_random_refuted | P_Pool2.v | - |
| C106 | track_threads_refuted | P_Pool2.v | - |
| C107 | agisoft_xml | P_CalibXml.v | SF |
| C107 | agisoft_xml_errors | P_CalibXml.v | SF |
| C107 | opencv_xml | P_CalibXml2.v | S |
| C107 | opencv_xml_errors | P_CalibXml2.v | S |
| C107 | opencv_xml_exponent_refuted | P_CalibXml2.v | SF |
| C107 | opencv_xml_round_trip | P_CalibXml2.v | S |
| C108 | matlab_report | P_CalibMatlab.v | SF |
| C108 | matlab_report_missing | P_CalibMatlab.v | SF |
| C108 | matlab_report_name_refuted | P_CalibMatlab.v | SF |
| C108 | matlab_report_line_refuted | P_CalibMatlab.v | SF |
| C109 | photomodeler_report | P_CalibPm.v | S |
| C109 | photomodeler_heading_refuted | P_CalibPm.v | S |
| C11 | datetime_range_complete | P_Helpers.v | - |
| C110 | resize_size | P_Resize.v | SF |
| C110 | resize_values | P_Resize.v | SCF |
| C110 | resize_range | P_Resize.v | SCF |
| C110 | resize_corners | P_Resize.v | SCF |
| C110 | resize_same | P_Resize.v | SCF |
| C110 | resize_plane_refuted | P_Resize.v | SCF |
| C110 | resize_nan_refuted | P_Resize.v | SF |
| C110 | resize_grid_refuted | P_Resize.v | SF |
| C110 | raster_zlim | P_Resize.v | SCF |
| C110 | resize_empty | P_Resize.v | SF |
| C111 | grid_points | P_Mesh.v | SF |
| C111 | grid_modes | P_Mesh.v | SF |
| C111 | camera_grid_points | P_Mesh.v | SF |
| C111 | camera_grid_pixels | P_Mesh.v | SF |
| C111 | box_polygon | P_Mesh.v | SF |
| C112 | lines_on_lines | P_Lines.v | SNCF |
| C112 | lines_inframe | P_Lines.v | SNCF |
| C112 | lines_close | P_Lines.v | SNCF |
| C112 | lines_predict_close | P_Lines.v | SNCF |
| C112 | lines_project_total | P_Lines.v | SNCF |
| C112 | lines_crossing_refuted | P_Lines.v | SNCF |
| C112 | lines_short_refuted | P_Lines.v | SNCF |
| C113 | observer_tiles | P_Observer.v | SF |
| C113 | observer_cache_images | P_Observer.v | SF |
| C113 | observer_index | P_Observer.v | - |
| C113 | observer_shift_tile | P_Observer.v | SF |
| C113 | observer_shift_none | P_Observer2.v | SF |
| C113 | observer_shift_plane | P_Observer2.v | SF |
| C113 | observer_shift_cached_refuted | P_Observer2.v | SF |
| C114 | oulu_converges | P_Oulu.v | SNF |
| C114 | undistort_converges | P_Oulu.v | SNCF |
| C114 | unproject_error | P_Oulu.v | SNCF |
| C115 | zone_stamp | P_Zone.v | - |
| C115 | zone_match | P_Zone.v | - |
| C115 | zone_constant | P_Zone.v | - |
| C115 | zone_bound | P_Zone.v | - |
| C115 | zone_gap_refuted | P_Zone.v | - |
| C115 | zone_fold_refuted | P_Zone.v | - |
| C116 | animate_shows | P_Animate.v | SF |
| C116 | animate_cached_refuted | P_Animate.v | SF |
| C116 | animate_white | P_Animate.v | SF |
| C116 | animate_view_refuted | P_Animate.v | SF |
| C116 | track_shows | P_Animate.v | SF |
| C116 | track_frames_refuted | P_Animate.v | SF |
| C116 | plot_tile_box_refuted | P_Animate.v | SF |
| C117 | camera_edges | P_Edges.v | SF |
| C117 | camera_edges_distinct | P_Edges.v | SF |
| C117 | camera_edges_spacing | P_Edges.v | SF |
| C117 | camera_edges_long_refuted | P_Edges.v | SF |
| C118 | tracks_animate_frames | P_TracksAnimate.v | SF |
| C118 | tracks_animate_nothing | P_TracksAnimate.v | SF |
| C118 | tracks_animate_frame | P_TracksAnimate.v | SF |
| C118 | tracks_animate_plain | P_TracksAnimate.v | SF |
| C118 | tracks_animate_gaps_refuted | P_TracksAnimate.v | SF |
| C118 | tracks_animate_index_refuted | P_TracksAnimate.v | SF |
| C118 | tracks_animate_tracker_refuted | P_TracksAnimate.v | SF |
| C119 | detect_result | P_Detect.v | SNF |
| C119 | detect_bytes | P_Detect.v | SF |
| C119 | detect_bytes_refuted | P_Detect.v | SF |
| C119 | rooted_bounds | P_Detect.v | SF |
| C119 | rooted_distance | P_Detect.v | SNF |
| C119 | rooted_scale | P_Detect.v | SNF |
| C12 | select_datetimes_bounds | P_Helpers.v | - |
| C12 | select_datetimes_snapped | P_Helpers.v | - |
| C12 | select_datetimes_unbounded_targets | P_Helpers.v | - |
| C12 | select_datetimes_single | P_Datetimes.v | - |
| C12 | select_datetimes_single_no_start | P_Datetimes.v | - |
| C12 | select_datetimes_singleton_refuted | P_Helpers.v | - |
| C120 | points_plot_errors | P_Plot.v | SNF |
| C120 | points_plot_index | P_Plot.v | SNF |
| C120 | lines_plot_errors | P_Plot.v | SNCF |
| C120 | matches_plot_errors | P_Plot.v | SNCF |
| C120 | matches_plot_xy_refuted | P_Plot.v | SNCF |
| C120 | poly_plot_shows | P_Plot.v | SF |
| C120 | poly_plot_refuted | P_Plot.v | SF |
| C120 | converter_plot_arrows | P_Plot.v | SF |
| C120 | converter_plot_outgoing | P_Plot.v | SF |
| C120 | converter_plot_incoming_refuted | P_Plot.v | SNCF |
| C120 | cameras_plot_shows | P_Plot.v | - |
| C120 | cameras_plot_error_refuted | P_Plot.v | - |
| C120 | cameras_plot_array_refuted | P_Plot.v | - |
| C121 | tracks_plot_xy | P_TracksPlot.v | SNF |
| C121 | tracks_plot_xy_total | P_TracksPlot.v | SNF |
| C121 | tracks_plot_vxy | P_TracksPlot.v | - |
| C121 | tracks_plot_v1d | P_TracksPlot.v | SNF |
| C121 | tracks_plot_empty_refuted | P_TracksPlot.v | SNF |
| C121 | tracks_plot_start_refuted | P_TracksPlot.v | SNF |
| C122 | track_output_same | P_TrackOut.v | SNF |
| C122 | track_output_particles | P_TrackOut.v | SNF |
| C122 | track_output_reduced | P_TrackOut.v | SNF |
| C122 | track_output_sizes_refuted | P_TrackOut.v | SNF |
| C122 | track_output_reduce_refuted | P_TrackOut.v | SNF |
| C122 | track_output_rebuild_refuted | P_TrackOut.v | SNF |
| C123 | share_quiet | P_Share.v | SF |
| C123 | share_apart | P_Share.v | SF |
| C123 | share_made | P_Share.v | SF |
| C123 | share_fresh | P_Share.v | SF |
| C123 | share_kept | P_Share.v | SF |
| C123 | share_resample | P_Share.v | SF |
| C123 | share_shift_own | P_Share2.v | SF |
| C123 | share_shift_values | P_Share2.v | SF |
| C123 | share_shift_limits | P_Share2.v | SF |
| C123 | share_sub_view | P_Share3.v | SF |
| C123 | share_copy | P_Share3.v | SF |
| C123 | share_limits_own | P_Share4.v | SF |
| C123 | share_array_own | P_Share4.v | SF |
| C123 | share_cell_own | P_Share4.v | SF |
| C123 | share_resample_own | P_Share4.v | SF |
| C123 | share_resample_shift_refuted | P_Share4.v | SF |
| C123 | share_sub_shift_only | P_Share4.v | SF |
| C123 | share_grid_shift_refuted | P_Share2.v | SF |
| C123 | share_sub_shift_refuted | P_Share3.v | SF |
| C124 | matrix_made | P_Matrix.v | SF |
| C124 | matrix_limits | P_Matrix.v | SF |
| C124 | matrix_shift_refuted | P_Matrix.v | SF |
| C124 | matrix_two_refuted | P_Matrix.v | SF |
| C125 | pickle_read | P_Files.v | - |
| C125 | pickle_returns | P_Files.v | - |
| C125 | pickle_killed | P_Files.v | - |
| C125 | pickle_history | P_Files.v | - |
| C125 | pickle_lost_refuted | P_Files.v | - |
| C125 | pickle_text_refuted | P_Files.v | - |
| C125 | pickle_seen | P_Files.v | - |
| C125 | json_refused | P_Files.v | - |
| C125 | json_returns | P_Files.v | - |
| C125 | json_read | P_Files.v | - |
| C125 | json_killed | P_Files.v | - |
| C125 | json_lost_refuted | P_Files.v | - |
| C126 | view_moved | P_Sight.v | SNCF |
| C126 | view_turned | P_Sight.v | SNF |
| C126 | view_turned_back | P_Sight.v | SNCF |
| C126 | view_flipped_back | P_Sight.v | SNCF |
| C126 | view_rolled | P_Sight.v | SNF |
| C126 | view_flipped | P_Sight.v | SNF |
| C126 | view_scaled | P_Sight.v | SNF |
| C126 | view_recentered | P_Sight.v | SNCF |
| C126 | view_magnified | P_Sight.v | SNCF |
| C127 | lookup_known | P_Lookup.v | SF |
| C127 | lookup_within | P_Lookup.v | SF |
| C127 | lookup_plain | P_Lookup.v | SF |
| C127 | lookup_spread | P_Lookup.v | SF |
| C127 | lookup_barrel_refuted | P_Lookup.v | SF |
| C13 | rasterize_points_means | P_Helpers.v | SF |
| C13 | rasterize_points_out_of_range | P_Helpers.v | SF |
| C13 | rasterize_points_in_place | P_Helpers.v | SF |
| C14 | compute_cdf_laws | P_Helpers.v | SF |
| C14 | match_cdf_laws | P_Helpers.v | SF |
| C15 | camera_set_changes_only_its_component | P_Camera.v | SF |
| C15 | camera_set_reads_back | P_Camera.v | SF |
| C15 | camera_reset_restores | P_Camera.v | SF |
| C15 | camera_copy_state | P_Camera.v | SF |
| C15 | camera_objects_independent | P_Camera.v | SF |
| C16 | camera_constructor | P_Camera.v | SF |
| C16 | camera_constructor_millimetres | P_Camera.v | SF |
| C17 | camera_rotation_proper | P_Camera.v | SNF |
| C17 | camera_rotation_periodic | P_Camera.v | SNF |
| C17 | camera_rotation_is_yaw_pitch_roll | P_Camera.v | SNF |
| C17 | camera_optical_axis | P_Camera.v | SNF |
| C18 | camera_rprime_is_derivative | P_Camera.v | SNF |
| C19 | camera_unproject_project | P_Camera.v | SNCF |
| C19 | camera_project_unproject | P_Camera.v | SNCF |
| C19 | camera_unproject_project_k1 | P_Camera.v | SNCF |
| C19 | camera_project_unproject_k1 | P_Camera.v | SNCF |
| C20 | camera_depth_exact | P_Camera3.v | SNF |
| C20 | camera_depth_level | P_Camera3.v | SNF |
| C20 | camera_behind_is_nan | P_Camera.v | SNF |
| C20 | camera_nan_iff_depth | P_Camera.v | SNF |
| C20 | camera_infront_correction_refuted | P_Camera.v | SNF |
| C21 | camera_ray_invariance | P_Camera.v | SNF |
| C21 | camera_direction_scale | P_Camera.v | SNF |
| C22 | camera_resize_general | P_Camera3.v | SNF |
| C22 | camera_resize_integral | P_Camera.v | SNF |
| C22 | camera_resize_factor_size | P_Camera.v | SF |
| C22 | camera_resize_target_size | P_Camera3.v | SF |
| C22 | camera_resize_sequence | P_Camera.v | SF |
| C22 | camera_resize_one_restores | P_Camera.v | SF |
| C22 | camera_resize_force_refuted | P_Camera.v | SF |
| C22 | camera_resize_target_size_refuted | P_Camera.v | SF |
| C23 | camera_k1_undistort_off_axis | P_Camera.v | SNCF |
| C23 | camera_k1_distort_undistort | P_Camera.v | SNCF |
| C23 | camera_k1_undistort_refuted | P_Camera.v | SNCF |
| C23 | camera_oulu_fixed_point_exact | P_Camera.v | SF |
| C24 | camera_rasterize_inside | P_Camera.v | SF |
| C24 | camera_rasterize_raises | P_Camera3.v | SCF |
| C24 | camera_rasterize_refuted | P_Camera.v | SF |
| C25 | camera_unproject_depths_all | P_Camera3.v | SNCF |
| C25 | camera_unproject_depths_refuted | P_Camera.v | SNCF |
| C26 | grid_rowcol_xy_inverse | P_Grid.v | SF |
| C26 | grid_rowcol_snap_round_trip | P_Grid.v | SF |
| C26 | grid_rowcol_is_center | P_Grid.v | SF |
| C26 | grid_snapped_cell_contains_point | P_Grid.v | SF |
| C26 | grid_index_bijection | P_Grid.v | - |
| C26 | grid_coordinates_are_centers | P_Grid.v | SF |
| C26 | grid_inbounds_uv_xy | P_Grid.v | SF |
| C27 | grid_snap_centers_nearest | P_Grid.v | SF |
| C27 | grid_snap_centers_lattice | P_Grid.v | SF |
| C27 | grid_snap_edges_nearest | P_Grid.v | SF |
| C27 | grid_snap_both_nearest | P_Grid.v | SF |
| C27 | grid_snap_stays_inbounds | P_Grid.v | SF |
| C27 | grid_snap_needs_a_target | P_Grid.v | - |
| C28 | grid_crop_extent | P_Grid.v | SCF |
| C28 | raster_crop | P_Raster.v | SCF |
| C28 | raster_crop_values | P_Raster.v | SCF |
| C29 | grid_tiles_partition | P_Grid.v | SF |
| C29 | grid_tiles_any_overlap | P_Grid2.v | SF |
| C29 | grid_tiles_overlap_refuted | P_Grid.v | SF |
| C30 | grid_caches | P_Grid3.v | SF |
| C30 | grid_caches_size_first | P_Raster.v | SF |
| C30 | grid_caches_refuted | P_Raster.v | SF |
| C30 | grid_size_stale_refuted | P_Raster4.v | SF |
| C30 | raster_caches_unshifted | P_Raster.v | SCF |
| C30 | raster_caches_refuted | P_Raster.v | SF |
| C30 | raster_sample_history_independent | P_Raster.v | SCF |
| C30 | raster_limits_sampled | P_Raster3.v | SCF |
| C30 | raster_sample_stale_refuted | P_Raster.v | SF |
| C31 | raster_shift_unsampled | P_Raster.v | SCF |
| C31 | raster_shift_sampled | P_Raster3.v | SCF |
| C31 | raster_shift_refuted | P_Raster.v | SF |
| C31 | raster_shift_y_after_sample_refuted | P_Raster.v | S |
| C32 | raster_data_extent | P_Raster.v | - |
| C32 | raster_crop_to_data | P_Raster.v | SCF |
| C33 | interpolant_nearest | P_Interp.v | SF |
| C33 | interpolant_nearest_extrapolate | P_Interp.v | SF |
| C33 | interpolant_between | P_Interp.v | SF |
| C33 | interpolant_at_node_refuted | P_Interp.v | SF |
| C33 | interpolant_extrapolate | P_Interp.v | SF |
| C33 | interpolant_sigma | P_Interp.v | SNF |
| C34 | viewshed_total | P_View.v | SNCF |
| C34 | viewshed_first_ring | P_View.v | SNCF |
| C34 | viewshed_above | P_View.v | SNCF |
| C34 | viewshed_below | P_View.v | SNCF |
| C34 | viewshed_monotone | P_View.v | SNCF |
| C34 | viewshed_plain_seen | P_View.v | SNCF |
| C34 | viewshed_plain_hidden | P_View.v | SNCF |
| C34 | viewshed_origin_refuted | P_View.v | SNCF |
| C34 | viewshed_colocated | P_View.v | SNCF |
| C35 | resample_systematic | P_Resample.v | SF |
| C35 | resample_stratified | P_Resample.v | SF |
| C35 | resample_choice | P_Resample.v | SF |
| C35 | resample_systematic_zero_draw_refuted | P_Resample.v | SF |
| C36 | resample_residual | P_Residual.v | SF |
| C36 | resample_residual_single | P_Residual.v | SF |
| C36 | resample_residual_counts | P_Resample.v | SF |
| C36 | resample_residual_refuted | P_Resample.v | SF |
| C37 | update_weights_positive | P_Resample.v | SF |
| C37 | update_weights_unchanged | P_Resample.v | S |
| C38 | particle_mean_bounds | P_Resample.v | SF |
| C38 | particle_mean_affine | P_Resample.v | SF |
| C38 | particle_mean_scale | P_Resample.v | SF |
| C38 | particle_covariance_psd | P_Resample.v | SNF |
| C39 | parse_datetimes_spec | P_Time.v | - |
| C39 | tracker_datetimes_spec | P_Time.v | - |
| C40 | match_datetimes_nearest | P_Time.v | - |
| C41 | track_window | P_Track.v | SNF |
| C41 | track_unobserved | P_Track3.v | SNF |
| C41 | track_unobserved_refuted | P_Track.v | SNF |
| C41 | track_filter | P_Track2.v | SNF |
| C41 | track_errors_contained | P_Track.v | SNF |
| C41 | track_single_raises | P_Track.v | SNF |
| C41 | track_results | P_Track.v | SNF |
| C42 | track_templates_in_order | P_Track.v | SNF |
| C42 | track_templates_all_tracks | P_Track.v | SNF |
| C43 | observer_construction | P_Time.v | - |
| C43 | observer_index_nearest | P_Time.v | - |
| C43 | observer_index_self | P_Time.v | - |
| C44 | motion_constant_velocity | P_Motion.v | SF |
| C44 | cartesian_motion_exact | P_Motion.v | SF |
| C44 | cartesian_motion_composes | P_Motion.v | SF |
| C44 | cartesian_motion_unit_free | P_Motion.v | SF |
| C44 | polar_acceleration | P_Motion.v | SNF |
| C44 | cylindrical_motion_moving | P_Motion.v | SNF |
| C44 | cylindrical_motion_exact | P_Motion.v | SNF |
| C44 | cylindrical_motion_isotropic | P_Motion.v | SNF |
| C44 | cylindrical_motion_at_rest_refuted | P_Motion.v | SNF |
| C44 | cylindrical_motion_turning_refuted | P_Motion.v | SNF |
| C44 | tangent_motion_follows_surface | P_Motion.v | SNF |
| C44 | tangent_cylindrical_motion_follows_surface | P_Motion.v | SNF |
| C44 | tangent_height_above_surface | P_Motion.v | SF |
| C44 | tangent_motion_reverses | P_Motion.v | SNF |
| C44 | tangent_motion_outside | P_Motion.v | SNF |
| C44 | surface_defined | P_Motion.v | SCF |
| C45 | tracks_endpoints | P_Tracks.v | - |
| C45 | tracks_success | P_Tracks.v | - |
| C45 | tracks_components | P_Tracks.v | SNF |
| C45 | tracks_sigma_sources_agree | P_Tracks.v | SNF |
| C46 | image_read_history | P_Image.v | SF |
| C46 | image_read_uncached | P_Image.v | SF |
| C46 | image_read_uncached_resized | P_Image.v | SF |
| C46 | image_read_uncached_refuted | P_Image.v | SF |
| C46 | image_read_shared_refuted | P_Image.v | SF |
| C47 | image_complete_arguments | P_Image.v | SF |
| C47 | image_metadata_arguments | P_Image.v | SF |
| C47 | image_camera_argument | P_Image.v | SF |
| C47 | image_supplemented_arguments | P_Image.v | SF |
| C47 | image_f_argument_refuted | P_Image.v | SF |
| C47 | image_missing_size_refuted | P_Image.v | SF |
| C47 | image_bad_metadata_refuted | P_Image.v | SF |
| C48 | agisoft_from_exact_iff | P_Convert.v | SNCF |
| C48 | matlab_from_exact_iff | P_Convert.v | SNCF |
| C48 | opencv_from_exact | P_Convert.v | SF |
| C48 | photomodeler_from_exact | P_Convert.v | SNF |
| C48 | photomodeler_from_exact_iff | P_Convert3.v | SNF |
| C48 | agisoft_from_no_optimization | P_Convert.v | SNCF |
| C48 | matlab_from_no_optimization | P_Convert.v | SNCF |
| C48 | agisoft_from_optimizes | P_Convert.v | SNCF |
| C48 | matlab_from_optimizes | P_Convert.v | SNCF |
| C48 | photomodeler_from_optimizes | P_Convert3.v | SNF |
| C48 | agisoft_from_selected | P_Convert.v | SNCF |
| C48 | matlab_from_selected | P_Convert.v | SNCF |
| C48 | agisoft_to_exact_iff | P_Convert.v | SNCF |
| C48 | matlab_to_exact_iff | P_Convert.v | SNCF |
| C48 | opencv_to_exact_iff | P_Convert.v | SNCF |
| C48 | photomodeler_to_exact_iff | P_Convert.v | SNF |
| C48 | agisoft_to_camera | P_Convert.v | SNCF |
| C48 | matlab_to_camera | P_Convert.v | SNCF |
| C48 | opencv_to_camera | P_Convert.v | SNCF |
| C48 | photomodeler_to_camera | P_Convert.v | SNF |
| C48 | convert_round_trip | P_Convert.v | SNCF |
| C48 | convert_back_round_trip | P_Convert.v | SNCF |
| C48 | opencv_arrays | P_Convert.v | S |
| C48 | opencv_coeffs | P_Convert2.v | SF |
| C48 | matlab_default_center | P_Convert2.v | SF |
| C48 | converter_sizes | P_Convert2.v | SNF |
| C48 | convert_grid | P_Convert2.v | SNF |
| C48 | convert_grid_inside | P_Convert2.v | SF |
| C48 | convert_grid_narrow | P_Convert3.v | SNF |
| C48 | convert_index_exact | P_Convert3.v | - |
| C48 | convert_index_refuted | P_Convert.v | SNCF |
| C48 | convert_grid_refuted | P_Convert2.v | SNF |
| C48 | photomodeler_cancel_refuted | P_Convert.v | SNF |
| C49 | polyline_round_trip | P_Svg.v | - |
| C49 | polygon_round_trip_iff | P_Svg.v | - |
| C49 | polygon_open_closed | P_Svg.v | - |
| C49 | line_round_trip_iff | P_Svg.v | - |
| C49 | circle_round_trip_iff | P_Svg.v | - |
| C49 | path_round_trip | P_Svg.v | - |
| C49 | integer_path_round_trip | P_Svg.v | - |
| C49 | path_short_refuted | P_Svg.v | - |
| C49 | rect_round_trip | P_Svg.v | - |
| C49 | viewBox_round_trip | P_Svg.v | - |
| C49 | path_vertices | P_SvgPath.v | - |
| C49 | path_vertices_first | P_SvgPath.v | - |
| C49 | path_two_subpaths_refuted | P_SvgPath.v | - |
| C49 | path_second_subpath_refuted | P_SvgPath.v | - |
| C49 | path_leading_space_refuted | P_SvgPath.v | - |
| C49 | path_adjacent_refuted | P_SvgPath.v | - |
| C50 | transform_in_written_order | P_Svg2.v | SF |
| C50 | transform_standard_when_commuting | P_Svg2.v | SF |
| C50 | transform_standard_translations | P_Svg2.v | SF |
| C50 | transform_unsupported | P_Svg2.v | SF |
| C50 | transform_wrong_count | P_Svg2.v | SF |
| C50 | transform_order_refuted | P_Svg2.v | SF |
| C50 | transform_space_refuted | P_Svg2.v | - |
| C51 | cameras_set | P_Params.v | S |
| C51 | cameras_set_same_iff | P_Params.v | SC |
| C51 | cameras_set_injective | P_Params.v | S |
| C51 | cameras_set_long | P_Params3.v | - |
| C51 | cameras_set_length | P_Params3.v | C |
| C51 | cameras_set_short_refuted | P_Params3.v | S |
| C51 | cameras_initial_round_trip | P_Params.v | SCF |
| C51 | cameras_predicted_restores | P_Params.v | - |
| C51 | cameras_predicted_error | P_Params.v | S |
| C51 | cameras_reset | P_Params.v | - |
| C51 | cameras_ungrouped_refuted | P_Params.v | SF |
| C51 | cameras_overlap_refuted | P_Params.v | SF |
| C51 | cameras_predicted_error_refuted | P_Params.v | SF |
| C52 | ransac_best | P_Ransac.v | SF |
| C52 | ransac_inliers_refuted | P_Ransac.v | SF |
| C52 | ransac_samples_distinct | P_Ransac2.v | SNCF |
| C52 | ransac_samples_zero | P_Ransac2.v | SNCF |
| C52 | ransac_samples_refuted | P_Ransac2.v | SNCF |
| C53 | matcher_order | P_Matcher.v | - |
| C53 | matching_pairs | P_Matcher.v | - |
| C53 | matching_pairs_total | P_Matcher.v | - |
| C53 | build_matches_result | P_Matcher2.v | - |
| C53 | matching_imgs_refuted | P_Matcher.v | - |
| C53 | matching_empty_seq_refuted | P_Matcher.v | - |
| C53 | build_matches_shape_refuted | P_Matcher2.v | - |
| C53 | build_matches_none_refuted | P_Matcher2.v | - |
| C54 | drop_images_aligned | P_Matcher3.v | - |
| C54 | drop_images_history | P_Matcher3.v | - |
| C54 | drop_images_others_refuted | P_Matcher3.v | - |
| C54 | drop_images_keypoints_refuted | P_Matcher3.v | - |
| C55 | camera_viewbox_contains_frustum | P_Camera.v | SNCF |
| C55 | camera_viewbox_exact | P_Edges.v | SNCF |
| C56 | camera_spherical_inverse | P_Camera.v | SNCF |
| C56 | camera_spherical_round_trip | P_Camera.v | SNCF |
| C57 | raster_sample_bounds | P_Raster.v | SCF |
| C57 | raster_sample_nearest | P_Raster.v | SCF |
| C57 | raster_sample_linear | P_Raster.v | SCF |
| C57 | raster_sample_exact | P_Raster.v | SCF |
| C57 | raster_sample_planar | P_Raster.v | SCF |
| C57 | raster_sample_within_values | P_Raster.v | SCF |
| C58 | interpolant_cell_size | P_Interp.v | SF |
| C58 | interpolant_cell_size_refuted | P_Interp.v | SF |
| C59 | resample_double_weight_refuted | P_Resample.v | SF |
| C60 | observer_subset_spec | P_Time.v | - |
| C60 | observer_split_breaks | P_Time.v | - |
| C60 | observer_split_int | P_Time.v | - |
| C60 | observer_split_int_refuted | P_Time.v | - |
| C61 | track_idle_observer | P_Track3.v | SNF |
| C61 | track_idle_observer_fails | P_Track3.v | SNF |
| C61 | track_idle_call | P_Track3.v | SNF |
| C61 | track_idle_default_refuted | P_Track3.v | SNF |
| C62 | tile_box_contract | P_Template.v | SF |
| C62 | search_box_contract | P_Template.v | SF |
| C62 | search_box_tight | P_Template.v | SF |
| C62 | template_likelihoods_total | P_Template.v | SF |
| C62 | template_likelihood_nodes | P_Template.v | SF |
| C62 | template_likelihood_aligned | P_Template.v | SF |
| C62 | template_exact_match | P_Template.v | SF |
| C62 | template_sampling_outside_nodes_refuted | P_Template.v | SF |
| C63 | cartesian_initialize | P_Motion.v | SF |
| C63 | cylindrical_initialize | P_Motion.v | SNF |
| C63 | tangent_initialize | P_Motion.v | SNF |
| C63 | motion_log_likelihood | P_Motion.v | SF |
| C63 | motion_default_dem_sigma_refuted | P_Motion.v | SF |
| C63 | motion_scalar_dem_refuted | P_Motion.v | SF |
| C64 | camera_projection_formula | P_Camera2.v | SNF |
| C65 | params_selection | P_Params.v | - |
| C65 | params_selection_exact | P_Params2.v | - |
| C65 | params_selection_refuted | P_Params.v | S |
| C66 | sparsity_sound | P_Params.v | SC |
| C67 | weights_normalized | P_Params.v | SF |
| C67 | residuals_weighted | P_Params.v | SF |
| C68 | build_keypoints_result | P_Matcher4.v | - |
| C68 | build_keypoints_resume | P_Matcher4.v | - |
| C68 | build_keypoints_overwrite | P_Matcher4.v | - |
| C68 | build_keypoints_overwrite_refuted | P_Matcher4.v | - |
| C68 | build_keypoints_partial_file_refuted | P_Matcher4.v | - |
| C68 | build_keypoints_failed | P_Matcher4.v | - |
| C69 | build_matches_result | P_Matcher2.v | - |
| C69 | build_matches_clear | P_Matcher2.v | - |
| C69 | build_matches_resume | P_Matcher2.v | - |
| C69 | build_matches_partial_file_refuted | P_Matcher2.v | - |
| C69 | build_matches_clear_filter_refuted | P_Matcher2.v | - |
| C69 | build_matches_names_refuted | P_Matcher2.v | - |
| C70 | match_keypoints_spec | P_Matcher4.v | SNF |
| C70 | match_keypoints_few | P_Matcher4.v | SNF |
| C70 | match_keypoints_none_left_refuted | P_Matcher4.v | SNF |
| C70 | match_keypoints_same_descriptor_refuted | P_Matcher4.v | SNF |
| C70 | match_keypoints_zero_refuted | P_Matcher4.v | SNF |
| C71 | matches_per_image_spec | P_Matcher3.v | - |
| C71 | images_per_image_spec | P_Matcher3.v | - |
| C71 | match_breaks_spec | P_Matcher3.v | - |
| C71 | match_breaks_min_single | P_Matcher3.v | - |
| C71 | match_breaks_min_refuted | P_Matcher3.v | - |
| C72 | read_elements | P_Svg3.v | SF |
| C72 | image_frame | P_Svg3.v | SF |
| C72 | read_no_image | P_Svg3.v | SF |
| C72 | read_element_fails | P_Svg3.v | SF |
| C72 | group_transform_order_refuted | P_Svg3.v | SF |
| C73 | points_resize_ratio | P_Control.v | SF |
| C73 | resized_projection | P_Control.v | SNF |
| C73 | points_resize_residuals | P_Control.v | SNF |
| C73 | points_predicted_moved | P_Control.v | SNF |
| C73 | lines_merged | P_Control.v | SF |
| C73 | lines_predicted_nearest | P_Control.v | SF |
| C73 | lines_predicted_none | P_Control.v | - |
| C73 | matches_resize_ratio | P_Control3.v | SNCF |
| C73 | rotation_resize_refuted | P_Control3.v | SF |
| C73 | rotation_no_imgszs | P_Control3.v | SNCF |
| C74 | matches_true_points | P_Control2.v | SNCF |
| C74 | rotation_predicted | P_Control2.v | SNCF |
| C74 | rotation_predicted_refused | P_Control2.v | SNCF |
| C74 | rotation_xy_predicted | P_Control2.v | SNCF |
| C74 | rotation_rays | P_Control2.v | SNCF |
| C74 | rays_unit | P_Control2.v | SNF |
| C74 | to_type_new | P_Control2.v | SNCF |
| C74 | rotation_xy_only_refuted | P_Control2.v | SNCF |
| C75 | filter_keeps | P_Control3.v | SNCF |
| C75 | filter_fails | P_Control3.v | SNCF |
| C75 | filter_n_best | P_Control3.v | SNCF |
| C75 | new_imaged | P_Control3.v | SNCF |
| C75 | rotation_filter_refuted | P_Control3.v | SNCF |
| C75 | rotation_xy_filter_refuted | P_Control3.v | SNCF |
| C76 | project_point | P_Project.v | SNCF |
| C76 | project_size | P_Project.v | SNCF |
| C76 | project_identity | P_Project.v | SNCF |
| C76 | project_identity_int | P_Project.v | SNCF |
| C76 | project_identity_lens | P_Project.v | SNCF |
| C76 | project_range | P_Project.v | SNCF |
| C76 | project_refused | P_Project.v | SNCF |
| C76 | project_behind | P_Project.v | SNCF |
| C76 | project_integers_refuted | P_Project.v | SNCF |
| C77 | exif_datetime | P_Exif.v | SF |
| C77 | exif_datetime_fraction | P_Exif.v | SF |
| C77 | exif_datetime_refused | P_Exif.v | SF |
| C77 | exif_datetime_no_date | P_Exif.v | SF |
| C77 | exif_numbers | P_Exif.v | SF |
| C77 | exif_imgsz | P_Exif.v | SF |
| C77 | exif_imgsz_missing | P_Exif.v | SF |
| C77 | exif_iso | P_Exif.v | SF |
| C77 | exif_iso_pair_refuted | P_Exif.v | SF |
| C77 | exif_sensorsz | P_Exif.v | SF |
| C77 | exif_thumbnail | P_Exif.v | - |
| C78 | dump_accepts | P_Exif.v | - |
| C78 | dump_codes | P_Exif.v | - |
| C79 | circle_near | P_Circle.v | SNF |
| C79 | circle_exact | P_Circle.v | SNF |
| C79 | circle_total | P_Circle.v | SNF |
| C79 | circle_connected_refuted | P_Circle.v | SNF |
| C80 | fill_circle_exact | P_Circle.v | SNF |
| C80 | fill_circle_outside | P_Circle.v | SNF |
| C80 | fill_circle_center | P_Circle.v | SNF |
| C80 | fill_circle_small | P_Circle.v | SNF |
| C80 | fill_circle_total | P_Circle.v | SNF |
| C80 | fill_circle_inside_refuted | P_Circle.v | SNF |
| C81 | line_points | P_Line.v | SNF |
| C81 | line_error | P_Line.v | SNF |
| C81 | line_beyond | P_Line.v | SNF |
| C81 | line_default | P_Line.v | SNF |
| C81 | line_count | P_Line.v | SNF |
| C81 | line_step | P_Line.v | SNF |
| C81 | line_required | P_Line.v | - |
| C81 | line_fill_refuted | P_Line.v | SNF |
| C81 | line_step_refuted | P_Line.v | SNF |
| C82 | normalize_laws | P_Tile.v | SNF |
| C82 | tile_gain | P_Tile.v | SNF |
| C82 | tile_monotone | P_Tile.v | SNF |
| C82 | tile_recognised | P_Tile.v | SNF |
| C82 | tile_plain | P_Tile.v | SNF |
| C83 | gaussian_average | P_Filter.v | SF |
| C83 | gaussian_range | P_Filter.v | SF |
| C83 | gaussian_integer_refuted | P_Filter.v | SF |
| C84 | maximum_greatest | P_Filter.v | SF |
| C84 | maximum_infinite_refuted | P_Filter.v | SF |
| C84 | crevasses_range | P_Filter.v | SF |
| C85 | constructed_consistent | P_Build.v | SCF |
| C85 | constructor_accepts | P_Build.v | SF |
| C86 | default_bounds | P_Build.v | SF |
| C86 | params_entries | P_Build.v | SCF |
| C86 | params_start_iff | P_Build.v | SCF |
| C86 | params_start_refuted | P_Build.v | SCF |
| C87 | camera_json_round_trip | P_CameraJson.v | SF |
| C87 | camera_json_attributes | P_CameraJson.v | SF |
| C87 | camera_json_construct | P_CameraJson.v | SCF |
| C87 | camera_json_override | P_CameraJson.v | SF |
| C87 | camera_json_null_refuted | P_CameraJson.v | SF |
| C87 | camera_json_correction_refuted | P_CameraJson.v | SF |
| C87 | camera_correction_default | P_CameraJson.v | SF |
| C88 | getitem_slice | P_Getitem.v | - |
| C88 | raster_getitem | P_Getitem.v | SF |
| C88 | raster_getitem_refused | P_Getitem.v | SF |
| C88 | raster_getitem_int | P_Getitem.v | - |
| C88 | raster_getitem_pair_refuted | P_Getitem.v | SF |
| C88 | raster_getitem_shift_refuted | P_Getitem.v | SF |
| C89 | project_dem_image | P_Dem.v | SNCF |
| C89 | project_dem_pixels | P_Dem.v | SNCF |
| C89 | project_dem_raises | P_Dem.v | SNCF |
| C89 | project_dem_tiles_refuted | P_Dem.v | SNCF |
| C89 | project_dem_depth_scaled_refuted | P_Dem2.v | SNF |
| C90 | reversible_iff | P_Reversible.v | SF |
| C90 | reversible_false | P_Reversible.v | SNCF |
| C90 | reversible_nonnegative | P_Reversible.v | SF |
| C90 | reversible_corner_refuted | P_Reversible.v | SF |
| C91 | regulafalsi_result | P_Reversible.v | SF |
| C91 | regulafalsi_solution_kept | P_Reversible.v | SCF |
| C91 | regulafalsi_axis_refuted | P_Reversible.v | SF |
| C92 | horizon_points | P_Horizon.v | SNF |
| C92 | horizon_segments_lossless | P_Horizon.v | - |
| C92 | horizon_border_refuted | P_Horizon.v | SNF |
| C92 | horizon_outside_refuted | P_Horizon.v | SNF |
| C93 | raster_open_read | P_RasterFile.v | SCF |
| C93 | raster_read_box_refused | P_RasterFile.v | SF |
| C93 | raster_read_box_first_refuted | P_RasterFile.v | SCF |
| C93 | raster_read_finer_refuted | P_RasterFile.v | SF |
| C93 | raster_nodata_zero_refuted | P_RasterFile.v | SCF |
| C93 | grid_read_refuted | P_RasterFile.v | SCF |
| C94 | gradient_mean_value | P_Gradient.v | SNCF |
| C94 | gradient_plane | P_Gradient.v | SNCF |
| C94 | gradient_quadratic | P_Gradient.v | SF |
| C94 | gradient_small | P_Gradient.v | SF |
| C94 | hillshade_mirrored_refuted | P_Gradient.v | SNF |
| C94 | hillshade_south_face_refuted | P_Gradient.v | SNCF |
| C95 | orient_ray | P_Orient.v | SNF |
| C95 | orient_objective | P_Orient.v | SNF |
| C95 | orient_anchors | P_Orient.v | SNF |
| C95 | orient_minimum | P_Orient.v | SNF |
| C95 | orient_derivative | P_Orient.v | SNF |
| C95 | orient_gradient_anchors | P_Orient.v | SNF |
| C95 | orient_fit_restores | P_Orient.v | SNF |
| C95 | orient_fit_returns | P_Orient.v | SNF |
| C95 | orient_fit_interrupted_refuted | P_Orient.v | SNF |
| C95 | orient_gradient_refuted | P_Orient.v | SNF |
| C96 | fit_plain_restores | P_Fit.v | SF |
| C96 | fit_result | P_Fit.v | SF |
| C96 | fit_iterated_restores | P_Fit.v | SF |
| C96 | fit_iteration_size_refuted | P_Fit.v | SCF |
| C96 | fit_iteration_groups_refuted | P_Fit.v | SF |
| C96 | fit_round_shared_refuted | P_Fit.v | SCF |
| C97 | grid_sample_returns | P_GridSample.v | SCF |
| C97 | grid_sample_points | P_GridSample.v | SCF |
| C97 | grid_sample_nan | P_GridSample.v | SCF |
| C97 | grid_sample_out | P_GridSample.v | SCF |
| C97 | resample_grid | P_GridSample.v | SCF |
| C97 | resample_own_grid | P_GridSample.v | SCF |
| C97 | grid_sample_extrapolate_refuted | P_GridSample.v | SCF |
| C97 | grid_sample_unsorted_refuted | P_GridSample.v | SCF |
| C97 | grid_sample_all_nan_refuted | P_GridSample.v | SCF |
| C97 | grid_sample_border_refuted | P_GridSample.v | SCF |
| C97 | grid_sample_huge_refuted | P_GridSample.v | SCF |
| C97 | grid_sample_row_refuted | P_GridSample.v | SCF |
| C97 | grid_sample_column_refuted | P_GridSample.v | SCF |
| C98 | rasterize_means | P_Rasterize.v | SF |
| C98 | rasterize_length | P_Rasterize.v | SF |
| C98 | rasterize_nan_refuted | P_Rasterize.v | SF |
| C98 | rasterize_integer_refuted | P_Rasterize.v | SF |
| C98 | polygons_mask | P_Rasterize.v | SF |
| C98 | polygons_island_refuted | P_Rasterize.v | SF |
| C99 | strip_path_spec | P_Path.v | - |
| C99 | strip_path_unique | P_Path.v | - |
| C99 | image_names | P_Path.v | - |
| C99 | image_names_dots_refuted | P_Path.v | - |
| C99 | file_extension | P_Path.v | - |
