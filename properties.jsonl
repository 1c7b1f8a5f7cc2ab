{"id": "C01", "title": "Bresenham line is a minimal connected path hugging the segment", "statement": "helpers.bresenham_line(start, end) returns a list of exactly max(|dx|,|dy|)+1 distinct grid cells whose first is start and last is end, whose consecutive cells are king-move neighbours with the major coordinate advancing by exactly one each step, and every returned cell lies within half a cell (in the minor coordinate) of the exact straight segment.", "quantifier": "all pairs of integer endpoints, in every octant, of any length", "why_tests_cant": "Tests sample a few short segments; the error accumulator must be right for every slope and every length.", "anchors": ["src/glimpse/helpers.py:bresenham_line"]}
{"id": "C02", "title": "Bresenham line is independent of travel direction", "statement": "bresenham_line(b, a) is exactly bresenham_line(a, b) reversed, so a line of sight from a to b visits the same cells as from b to a.", "quantifier": "all pairs of integer endpoints", "why_tests_cant": "Ties in the error term are rare and slope dependent; only a proof covers all of them.", "anchors": ["src/glimpse/helpers.py:bresenham_line"]}
{"id": "C03", "title": "Splitting by a boolean mask is lossless and maximal", "statement": "boolean_split(a, mask) returns non-empty pieces whose concatenation is a, each piece has a constant mask value, and adjacent pieces have opposite mask values; with include='true' / 'false' exactly the pieces with that mask value are returned in order; with circular=True the first and last piece are merged (last before first) iff there is more than one piece and the first and last mask values agree, and the result is then still a rotation of a.", "quantifier": "all non-empty arrays and masks of the same length, both circular settings and every include mode", "why_tests_cant": "The number and position of runs is unbounded; index arithmetic of the splits and of the stride-2 selection must be right for all of them.", "anchors": ["src/glimpse/helpers.py:boolean_split"]}
{"id": "C04", "title": "format_list output length contract", "statement": "format_list(x, length=n, default=d) returns None for None; otherwise for n>0 a list of exactly n elements that is x truncated, x padded with d (d not None), or x repeated cyclically; it raises ValueError iff d is None, 0 < len(x) < n and len(x) does not divide n; without n (None or 0) x is returned unchanged; an empty x with no default stays empty.", "quantifier": "all input lists, all requested lengths and all defaults", "why_tests_cant": "Divisibility and boundary cases over all pairs of lengths.", "anchors": ["src/glimpse/helpers.py:format_list"]}
{"id": "C05", "title": "sorted_nearest returns a nearest element", "statement": "For x sorted ascending with at least two elements, sorted_nearest(x, y)[k] is a valid index i of x and |y[k]-x[i]| <= |y[k]-x[j]| for every j; the function succeeds for every y.", "quantifier": "all ascending arrays (including ones with ties) of any length, all query values", "why_tests_cant": "Boundary conditions (before first, after last, on ties, equal elements) interact with array length.", "anchors": ["src/glimpse/helpers.py:sorted_nearest", "src/glimpse/helpers.py:_sorted_neighbors"]}
{"id": "C06", "title": "intersect_boxes is the greatest common box", "statement": "intersect_boxes(boxes) either raises ValueError (odd box length, or no intersection of positive extent) or returns a box such that a point is strictly/loosely inside it iff it is inside every input box; it raises 'do not intersect' iff the common region has non-positive extent in some dimension.", "quantifier": "all non-empty collections of boxes of any (even) dimension; points of the same dimension", "why_tests_cant": "Unbounded number of boxes and dimensions.", "anchors": ["src/glimpse/helpers.py:intersect_boxes"]}
{"id": "C07", "title": "bounding_box is the tightest enclosing box", "statement": "bounding_box(points) contains every point (in_box is True for each) and every face of the box touches at least one point, so no smaller box contains all points.", "quantifier": "all non-empty finite point sets of any dimension", "why_tests_cant": "Universally quantified over points and over competing boxes.", "anchors": ["src/glimpse/helpers.py:bounding_box", "src/glimpse/helpers.py:in_box"]}
{"id": "C08", "title": "box_to_grid enumerates exactly the snapped lattice points inside the box", "statement": "For step>0, the coordinates returned by box_to_grid(box, step, snap, mode='vectors') along each axis are exactly, in increasing order and without repetition, all values snap + k*step (k integer) that lie in [box min, box max].", "quantifier": "all boxes with min<=max, all positive steps and all snap points (inside or outside the box)", "why_tests_cant": "Completeness (no lattice point is missed) and soundness (none outside) range over the reals.", "anchors": ["src/glimpse/helpers.py:box_to_grid"]}
{"id": "C09", "title": "Ray/box intersection is exactly the slab intersection", "statement": "intersect_rays_box(origin, d, box, t=True), for a ray that is not parallel to the x faces or does not start in the plane of one of them: entry and exit are both nan iff no t>=0 has origin+t*d in the closed box; otherwise exit is the last such t, and entry is the first t of the line in the box if that is >= 0, else nan (origin inside). For a ray parallel to the x faces that starts in the plane of the lower one, entry is always nan and exit is the last t in the box whenever the box is met; in the plane of the upper one, exit is always nan and entry is the first t in the box whenever the box is met (nan if the line entered before the origin); for a box without extent along x both are nan. Findings: so a face-plane ray loses its entry or its exit, and in three dimensions such a ray can be reported to leave a box that it misses.", "quantifier": "all origins, all non-zero directions, all boxes, in two and three dimensions", "why_tests_cant": "Division by zero produces inf/nan whose propagation through comparisons depends on axis order; only exhaustive reasoning finds the failing combinations.", "anchors": ["src/glimpse/helpers.py:intersect_rays_box"]}
{"id": "C10", "title": "Polyline clipping inserts the boundary crossing vertices", "statement": "clip_polyline_box(line, box, t) returns one piece for each maximal run of vertices in the closed box, holding these vertices unchanged. Between a vertex outside and the first vertex of a run, the point where the edge reaches the box is inserted, exactly when this is not the vertex itself and the edge is not in the plane of the lower x face; between the last vertex of a run and the next vertex outside, the point where the edge leaves the box is inserted, exactly when this is not the vertex itself, the edge is not in the plane of the upper x face, and the line through the edge does not come into the box at the vertex (unless the edge is in the plane of the lower x face). So every crossing is inserted when no vertex is on the boundary of the box. Measures (t=True) are interpolated. Findings: with vertices on the boundary, crossings can be lost.", "quantifier": "all lines of at least one vertex, all boxes, two and three dimensions, with and without measures", "why_tests_cant": "Vertices lying exactly on the boundary, arbitrary run structure.", "anchors": ["src/glimpse/helpers.py:clip_polyline_box", "src/glimpse/helpers.py:intersect_edge_box"]}
{"id": "C11", "title": "datetime_range is complete and evenly spaced", "statement": "For step>0 datetime_range(start, stop, step) returns exactly the datetimes start + k*step (k=0,1,...) that are <= stop, ascending, the first being start when start<=stop, and the empty list otherwise.", "quantifier": "all datetimes (microsecond resolution) and all positive steps", "why_tests_cant": "Off-by-one at the inclusive end for every divisibility case.", "anchors": ["src/glimpse/helpers.py:datetime_range"]}
{"id": "C12", "title": "select_datetimes selects exactly the snapped nearest datetimes in range", "statement": "For strictly ascending datetimes, select_datetimes(t, start, end, snap, maxdt) raises ValueError iff start > end (missing bounds: first and last datetime, widened by snap); without snap it marks exactly the datetimes with start<=t<=end; with snap and at least two datetimes it marks exactly those that in addition are nearest (the earlier one of two) to a snap target (origin + k snap) in [start,end] and within maxdt (default half of snap) of it. For a single datetime with snap it raises IndexError iff a target is not later than the datetime (so always when no start is given and there is a target), and otherwise marks it by the same rule. Finding: that error.", "quantifier": "all strictly ascending sequences of datetimes, all bounds, all positive snap intervals, tolerances and origins", "why_tests_cant": "The interaction of range limits, snap phase and nearest selection cannot be enumerated.", "anchors": ["src/glimpse/helpers.py:select_datetimes", "src/glimpse/helpers.py:datetime_range", "src/glimpse/helpers.py:sorted_nearest"]}
{"id": "C13", "title": "rasterize_points writes the mean of the points of each cell and nothing else", "statement": "rasterize_points(rows, cols, values, a=a) sets a cell to the arithmetic mean of the values of all points at that row/column if there is at least one, and leaves every other cell unchanged; with shape given it returns the strictly increasing flat indices of the occupied cells with their means; out-of-range indices raise.", "quantifier": "all finite point lists (repeated cells in any order) and all array shapes", "why_tests_cant": "Grouping of arbitrary multisets of points.", "anchors": ["src/glimpse/helpers.py:rasterize_points"]}
{"id": "C14", "title": "compute_cdf / match_cdf laws", "statement": "compute_cdf(a, return_inverse=True) returns strictly increasing values, with values[inverse]==a, and quantiles strictly increasing in (0,1], each the fraction of elements <= that value, ending at 1; match_cdf(a, b) preserves order (a_i<=a_j implies result_i<=result_j), stays within [min b, max b], and match_cdf(a, a) == a.", "quantifier": "all non-empty arrays", "why_tests_cant": "Distributional facts over all multisets of values.", "anchors": ["src/glimpse/helpers.py:compute_cdf", "src/glimpse/helpers.py:match_cdf"]}
{"id": "C15", "title": "Camera parameter vector, copy and reset", "statement": "Setting one named camera component (xyz, viewdir, imgsz, f, c, k, p) changes exactly that component and leaves all others unchanged; reading it back gives the value set (padded by format rules); copy() gives a camera with the same current parameters (which become the copy's original parameters) whose later changes do not affect the source and vice versa; reset() restores xyz, viewdir, imgsz, f, c, k and p to those at construction, after any sequence of operations (sensorsz and correction are not part of the saved state).", "quantifier": "all cameras and all finite sequences of set/resize/idealize/reset/copy operations", "why_tests_cant": "All histories of mutations on shared array state.", "anchors": ["src/glimpse/camera.py:Camera.__init__", "src/glimpse/camera.py:Camera.copy", "src/glimpse/camera.py:Camera.reset", "src/glimpse/camera.py:Camera.idealize"]}
{"id": "C16", "title": "Camera constructor accepts exactly the documented argument combinations", "statement": "Camera(...) raises iff: fmm or cmm is given without sensorsz, or both f and fmm are given, or both c and cmm are given, or neither f nor fmm is given (or imgsz is not integral); otherwise the resulting camera has the requested values and fmm/cmm getters return the requested millimetre values.", "quantifier": "all argument combinations and values", "why_tests_cant": "Combinatorial argument presence times real-valued data.", "anchors": ["src/glimpse/camera.py:Camera.__init__", "src/glimpse/camera.py:Camera.fmm", "src/glimpse/camera.py:Camera.cmm"]}
{"id": "C17", "title": "Camera rotation matrix is a proper rotation", "statement": "Camera.R is orthonormal with determinant 1 for every view direction (yaw, pitch, roll), so camera-frame transformation preserves distances and handedness; R is 360-degree periodic in each angle.", "quantifier": "all real view directions", "why_tests_cant": "Continuous domain.", "anchors": ["src/glimpse/camera.py:Camera.R"]}
{"id": "C18", "title": "Camera.Rprime is the derivative of Camera.R", "statement": "Each entry of Camera.Rprime equals the partial derivative, per degree, of the corresponding entry of Camera.R with respect to yaw, pitch or roll.", "quantifier": "all real view directions and the three angles", "why_tests_cant": "Derivatives at every point.", "anchors": ["src/glimpse/camera.py:Camera.R", "src/glimpse/camera.py:Camera.Rprime"]}
{"id": "C19", "title": "Project / unproject round trip", "statement": "For a camera without lens distortion and with non-zero focal lengths, cam.xyz_to_uv(cam.uv_to_xyz(uv, depth=d)) == uv for every d>0 (both as positions and as directions), and the returned world point has optical-axis depth d.", "quantifier": "all undistorted cameras, all image points and all positive depths", "why_tests_cant": "Identity over reals in 15 parameters.", "anchors": ["src/glimpse/camera.py:Camera.uv_to_xyz", "src/glimpse/camera.py:Camera.xyz_to_uv", "src/glimpse/camera.py:Camera._xyz_to_xy", "src/glimpse/camera.py:Camera._xy_to_xyz"]}
{"id": "C20", "title": "Points behind the camera never project", "statement": "For every camera and world point, return_depth gives the distance along the optical axis minus, for a camera with elevation corrections, the drop (1-refraction) d^2/(2 radius) times the sine of the pitch; xyz_to_uv returns nan exactly when that depth is not positive; infront() is True exactly when the uncorrected distance along the axis is positive. For ray directions, cameras without corrections and level cameras, infront() is therefore True exactly for the points that project. Finding: for other cameras with corrections the two can disagree.", "quantifier": "all cameras, all world points and directions", "why_tests_cant": "Continuous domain, boundary at depth 0.", "anchors": ["src/glimpse/camera.py:Camera.xyz_to_uv", "src/glimpse/camera.py:Camera.infront", "src/glimpse/camera.py:Camera._xyz_to_xy"]}
{"id": "C21", "title": "Projection is invariant along rays", "statement": "Two world points on the same ray from the camera (at different positive distances) project to the same image point, and directions=True projects a direction to where the points along it project (without elevation corrections).", "quantifier": "all cameras (any distortion), rays and positive scale factors", "why_tests_cant": "Continuous domain.", "anchors": ["src/glimpse/camera.py:Camera.xyz_to_uv", "src/glimpse/camera.py:Camera._xyz_to_xy"]}
{"id": "C22", "title": "Camera resizing is consistent and relative to the original size", "statement": "Every successful resize sets imgsz to the rounded requested size (nx, ny), scales f and c by nx/w and ny/h, leaves everything else unchanged, and maps the projection (u, v) of every point to (u - w/2) nx/w + round(nx)/2 (same for v), which is u times the actual size ratio whenever the request is integral; fmm and cmm are then unchanged. The requested size is the rounded scaled original size for a factor, the size itself with force, and otherwise the size itself except one more pixel per side where the scale found lands on a half. Any sequence of integral resizes ending with resize(1) restores the original imgsz, f and c. Findings: fractional forced sizes and half-pixel scales.", "quantifier": "all cameras, all successful resize requests (factors, sizes, forced sizes), all points, all sequences of integral resizes", "why_tests_cant": "All histories of resizes; rounding at every size.", "anchors": ["src/glimpse/camera.py:Camera.resize"]}
{"id": "C23", "title": "k1-only undistortion solves the distortion cubic", "statement": "For a camera whose only distortion coefficient is k1, undistorting (x, y) with x<>0 or y=0 gives a point whose distortion is exactly (x, y) (so r'(1 + k1 r'^2) = r, in both the one-root and the three-root case), and undistorting a distorted point gives the point back if x<>0 and it is in the range where distortion is increasing; points with x=0 are all sent to the center. For any other distortion, a fixed point of the iterative method is an exact inverse. Finding: the collapse of the vertical axis.", "quantifier": "all cameras with a k1 coefficient only (any sign), all points of the camera frame; for the iterative method all cameras and points", "why_tests_cant": "Closed-form cubic branches over the reals.", "anchors": ["src/glimpse/camera.py:Camera._undistort_k1", "src/glimpse/camera.py:Camera._distort"]}
{"id": "C24", "title": "inframe points can be rasterized", "statement": "cam.rasterize(uv, values) raises ValueError exactly when some point for which cam.inframe is True lies on the right or bottom border (u = width or v = height); otherwise pixel (r, q) holds the mean of the values of exactly the points with floor(v) = r and floor(u) = q, and nan if there is none. Finding: so inframe does not imply acceptance.", "quantifier": "all cameras with a non-negative image size, all points (including nan) and values", "why_tests_cant": "Border equality case in a continuous domain.", "anchors": ["src/glimpse/camera.py:Camera.inframe", "src/glimpse/camera.py:Camera.rasterize"]}
{"id": "C25", "title": "uv_to_xyz accepts per-point depths", "statement": "uv_to_xyz(uv, depth) places point k at optical-axis depth `depth` if this is a number, depth[k] for a list of as many depths as points, the single depth for a list or array of one, and 1 for an empty array; it raises ValueError exactly for lists of any other length and for every array of more than one depth. Finding: the documented array of depths always raises.", "quantifier": "all cameras without elevation corrections (or directions), all depth arguments, all image points", "why_tests_cant": "Behaviour depends on the array length.", "anchors": ["src/glimpse/camera.py:Camera.uv_to_xyz"]}
{"id": "C26", "title": "Grid cell/coordinate round trips", "statement": "For any grid with non-zero cell size (increasing or decreasing in either axis), xy_to_rowcol(rowcol_to_xy(rc), snap=True) == rc and rowcol_to_xy / xy_to_rowcol (unsnapped) are mutual inverses; rowcol_to_idx and idx_to_rowcol are mutually inverse bijections between cells and 0..size-1.", "quantifier": "all grid sizes, limits (both orientations), cells and coordinates", "why_tests_cant": "Continuous domain, all sizes.", "anchors": ["src/glimpse/raster.py:Grid.rowcol_to_xy", "src/glimpse/raster.py:Grid.xy_to_rowcol", "src/glimpse/raster.py:Grid.rowcol_to_idx", "src/glimpse/raster.py:Grid.idx_to_rowcol"]}
{"id": "C27", "title": "snap_xy returns the nearest grid feature in bounds", "statement": "snap_xy(xy, centers, edges, inbounds) returns the nearest cell center, edge or both as requested for points within the grid, and with inbounds=True the result is within the grid limits (for centers: is the center of an existing cell).", "quantifier": "all grids, points and mode flags", "why_tests_cant": "Rounding ties and out-of-bounds points.", "anchors": ["src/glimpse/raster.py:Grid.snap_xy"]}
{"id": "C28", "title": "crop covers the request and stays within the grid", "statement": "crop_extent(xlim, ylim) returns limits and row/column ranges that are whole cells of the grid, lie inside the grid, include every cell whose interior intersects the requested box, and raises iff the request does not intersect the grid; cropping a raster keeps each remaining cell's coordinates and value.", "quantifier": "all grids and all requested boxes, both axis orientations", "why_tests_cant": "Rounding of cell edges for all positions.", "anchors": ["src/glimpse/raster.py:Grid.crop_extent", "src/glimpse/raster.py:Raster.crop"]}
{"id": "C29", "title": "Tiles cover the grid", "statement": "tile_indices(size, overlap=0) yields slices that are within the grid, pairwise disjoint, and whose union is every cell. With an overlap >= 0 it yields the same tiles with the start of each slice lowered by the overlap (except slices starting at 0): a slice starting at a>0 then covers from a-overlap if overlap<=a, and otherwise (its start is negative, so counted from the end) from max(0, n+a-overlap), n the number of cells; so a tile keeps its own cells exactly when in each dimension a=0, overlap<=a or overlap>=n. (Finding: other overlaps lose cells.)", "quantifier": "all grid sizes, tile sizes and overlaps", "why_tests_cant": "Remainder and rounding cases for all sizes.", "anchors": ["src/glimpse/raster.py:Grid.tile_indices"]}
{"id": "C30", "title": "Grid and raster coordinate caches are coherent", "statement": "Grid: after any history of sets, shifts and reads, x, y, X, Y are the cell centers of the current limits divided into the number of cells the grid had when that coordinate was first read since its limits last changed; hence they equal those of a freshly constructed grid exactly when the size is still that one (finding: stale after size is set). Raster: after any history in which no shift comes between a two-dimensional sample and the next array assignment, x, y, X, Y equal those of a fresh raster; samples depend only on the current limits and array, except that limits set after a two-dimensional sample leave all samples as they were (finding). The effect of the excluded shift is C31.", "quantifier": "Grid: all finite histories of sets, shifts and reads. Raster: all finite histories of sets, reads, samples, crops and shifts with no shift of a raster sampled in two dimensions since its array was last assigned", "why_tests_cant": "Stale caches only appear in particular operation orders.", "anchors": ["src/glimpse/raster.py:Grid.x", "src/glimpse/raster.py:Grid.y", "src/glimpse/raster.py:Grid.X", "src/glimpse/raster.py:Grid.Y", "src/glimpse/raster.py:Grid.size", "src/glimpse/raster.py:Raster.array", "src/glimpse/raster.py:Raster.shift", "src/glimpse/raster.py:Grid.resize"]}
{"id": "C31", "title": "Raster.shift moves the raster by exactly the requested offsets", "statement": "shift(dx, dy, dz) of a raster not sampled in two dimensions since its array was last assigned: raises TypeError exactly when a float is added to integer limits or values; otherwise x limits, y limits and values move by dx, dy, dz, and sampling at a translated location gives the translated value, whichever of dx, dy, dz is given. After a two-dimensional sample (finding) it also raises TypeError whenever dy is given without dz, and otherwise moves the limits by (dx, dy) but the coordinates x, y and the sampled surface by (2dx, 2dy), the array by dz (2dz if it is of floats and dy is given) and the sampled values by dz if the array is of floats, plus dz if dy is given.", "quantifier": "all rasters reached without limits or position being changed while an interpolator is cached, all offsets, subsets of given arguments, and both cache states", "why_tests_cant": "Interaction of optional arguments with hidden interpolator cache.", "anchors": ["src/glimpse/raster.py:Raster.shift", "src/glimpse/raster.py:Grid.shift", "src/glimpse/raster.py:Raster.sample"]}
{"id": "C32", "title": "Data extent is tight", "statement": "data_extent returns the smallest row/column ranges containing every non-nan cell and crop_to_data keeps all non-nan cells; it raises iff the raster has no data.", "quantifier": "all arrays", "why_tests_cant": "All placements of data.", "anchors": ["src/glimpse/raster.py:Raster.data_extent", "src/glimpse/raster.py:Raster.crop_to_data"]}
{"id": "C33", "title": "Raster time interpolation is bracketing, exact at nodes and affine between", "statement": "RasterInterpolant(xi) raises ValueError iff xi is outside the range of x (in any order); strictly between nodes every cell is the affine combination of the last mean before and the first mean after xi (hence between the two values; missing where either is missing), and the uncertainty s satisfies s^2 = s0^2 + t^2 (s0^2 + s1^2) + ((z1 - z0) min(t, 1-t)/3)^2. With extrapolation it is the line through the two nearest nodes, exact at nodes. Without extrapolation, at a node every cell is nan for numbers and ZeroDivisionError is raised for datetimes (finding).", "quantifier": "all node positions (any order), all rasters of common size with missing cells, all xi", "why_tests_cant": "Index selection at boundaries for all lists.", "anchors": ["src/glimpse/raster.py:RasterInterpolant.nearest", "src/glimpse/raster.py:RasterInterpolant._interpolate", "src/glimpse/raster.py:RasterInterpolant.__call__"]}
{"id": "C34", "title": "Viewshed visibility is line-of-sight with respect to preceding rings", "statement": "viewshed(origin) groups cells into rings by distance to the origin rounded to whole cell widths. If only ring 0 has cells, all are visible; otherwise ring 0 (the viewer's own cell) is hidden (finding). Of the others: a cell of the nearest ring is visible iff it has an elevation; a cell seen under a steeper angle than every nearer cell (of rings > 0) is visible; a cell seen under no steeper an angle than the two cells of the preceding ring between which its line of sight passes is hidden; raising nearer terrain never makes a hidden cell visible; over a plain seen from above every cell is visible, and over a plain above the viewer none beyond the nearest ring.", "quantifier": "all rasters (with missing cells where stated), all viewpoints, all correction functions", "why_tests_cant": "All terrains.", "anchors": ["src/glimpse/raster.py:Raster.viewshed"]}
{"id": "C35", "title": "Systematic and stratified resampling are unbiased up to one copy", "statement": "With normalized weights, systematic resampling returns exactly n particles, preserves their order, and particle i is copied floor(n*w_i) or ceil(n*w_i) times; stratified resampling returns n particles in order with each copied at most n*w_i+2 times; particles with zero weight are never copied (for a draw not on a boundary); no index is out of range.", "quantifier": "all weight vectors, all random draws in [0,1), any number of particles", "why_tests_cant": "All weights and all draws.", "anchors": ["src/glimpse/track/tracker.py:Tracker.resample_particles"]}
{"id": "C36", "title": "Residual resampling honours weights", "statement": "With method='residual' exactly n particles result: floor(n*w_i) copies of each particle i, plus one copy per remaining draw. When at least two whole copies are due in total, draw u goes to the particle i where the running sum of (floor(n w_j) - w_j) / (sum of all floors - 1) crosses u, so only to particles due a whole copy; when one whole copy is due in total all draws go to one fixed particle. (Finding: they should go in proportion to the residuals n*w_i - floor(n*w_i).)", "quantifier": "all particle sets, all non-negative weights with positive sum, all draws in (0,1)", "why_tests_cant": "All weights.", "anchors": ["src/glimpse/track/tracker.py:Tracker.resample_particles"]}
{"id": "C37", "title": "Particle weights stay a positive distribution", "statement": "After update_weights, all particle weights are strictly positive and resampling divides by a positive sum; if no observer and the motion model gives no likelihood, weights are unchanged.", "quantifier": "all particle sets, likelihoods (including very small ones)", "why_tests_cant": "Underflow-type boundary for all magnitudes.", "anchors": ["src/glimpse/track/tracker.py:Tracker.update_weights", "src/glimpse/track/tracker.py:Tracker.initialize_weights"]}
{"id": "C38", "title": "Particle mean and covariance are the weighted statistics", "statement": "particle_mean lies within the bounding box of the particles for any positive weights, equals the common value when all particles agree, and the variances reported are the diagonal of the weighted covariance and are non-negative.", "quantifier": "all particle sets and positive weights", "why_tests_cant": "Continuous domain.", "anchors": ["src/glimpse/track/tracker.py:Tracker.particle_mean", "src/glimpse/track/tracker.py:Tracker.particle_covariance"]}
{"id": "C39", "title": "Tracking datetimes are strictly monotonic and matched", "statement": "parse_datetimes raises iff fewer than two datetimes survive or they are not monotonic; otherwise the result is strictly monotonic, a subset of the request (or the union of observer times), each within maxdt of some observer image.", "quantifier": "all observer time lists, all requested datetime lists, all maxdt", "why_tests_cant": "All list shapes.", "anchors": ["src/glimpse/track/tracker.py:Tracker.parse_datetimes", "src/glimpse/track/tracker.py:Tracker.match_datetimes"]}
{"id": "C40", "title": "Image matching picks the nearest image within tolerance", "statement": "match_datetimes returns for each datetime and observer the index of an image nearest in time if it is within maxdt, else None.", "quantifier": "all observers and datetimes", "why_tests_cant": "Ties and boundaries.", "anchors": ["src/glimpse/track/tracker.py:Tracker.match_datetimes"]}
{"id": "C41", "title": "Track output is confined to the observed interval and errors are contained", "statement": "For each track with a matching image the means/sigmas are nan before the first and after the last datetime with matching images of its observers and given in between (up to the error, if there is one); a track without any matching image is computed at all datetimes (finding). With more than one track an exception in one track is captured with its index and does not alter the other tracks' results; with a single track it propagates.", "quantifier": "all numbers of tracks, image-match patterns and failure points", "why_tests_cant": "All failure points.", "anchors": ["src/glimpse/track/tracker.py:Tracker.track"]}
{"id": "C42", "title": "Template initialisation precedes use", "statement": "In every track, each observer's reference template is initialised from that track's own particles at the first datetime with a matching image and before any likelihood is computed with it.", "quantifier": "all match patterns and numbers of observers and tracks", "why_tests_cant": "All schedules of matching images.", "anchors": ["src/glimpse/track/tracker.py:Tracker.track", "src/glimpse/track/tracker.py:Tracker.initialize_template"]}
{"id": "C43", "title": "Observer construction enforces strictly increasing datetimes", "statement": "Observer(images) raises iff fewer than two images, an image without datetime, or datetimes not strictly increasing; index(value) returns the position of that datetime within maxdt or raises.", "quantifier": "all image lists", "why_tests_cant": "All orders.", "anchors": ["src/glimpse/track/observer.py:Observer.__init__", "src/glimpse/track/observer.py:Observer.index"]}
{"id": "C44", "title": "Noise-free motion is exact kinematics", "statement": "With zero sigma, evolving by dt moves Cartesian particles by v*dt + a*dt^2/2 and changes the velocity by a*dt; two successive steps dt1, dt2 equal one step dt1+dt2, and dt then -dt restores the state. Cylindrical models make the same step with the acceleration whose radial and angular components (at the particle's velocity) are those given; a particle with no horizontal velocity loses its horizontal position and velocity (nan), and turning particles gain speed forward and backward, so that steps neither compose nor reverse (findings). Tangent models keep the particles' offset from the DEM. A zero time unit raises.", "quantifier": "all particle states (including at rest), accelerations, noise draws, time units and time steps", "why_tests_cant": "Continuous domain and compositions of steps.", "anchors": ["src/glimpse/track/motion.py:CartesianMotion.evolve_particles", "src/glimpse/track/motion.py:CylindricalMotion.evolve_particles"]}
{"id": "C45", "title": "Tracks summary accessors agree with the data", "statement": "Tracks.success is True exactly for the tracks without an error; Tracks.endpoints returns, for all selected tracks, whether the track has a known position at any time, and, for the tracks that have one and in order, the indices of its first and last such times. xyz, vxyz, xyz_sigma and vxyz_sigma select the position and the velocity components, and are the same whether standard deviations or covariances are stored.", "quantifier": "all tracks arrays with arbitrary nan patterns", "why_tests_cant": "All nan patterns.", "anchors": ["src/glimpse/track/tracks.py:Tracks.endpoints", "src/glimpse/track/tracks.py:Tracks.success"]}
{"id": "C46", "title": "Image.read is independent of cache state", "statement": "After any history of reads, camera resizes and cache clearings, Image.read(cache=True) and Image.read() without a box give the file resampled to the camera's image size, or its part in the box, which has the box's size; Image.read(box, cache=False) gives the same and leaves the image as it was, if the camera has the size of the cached array (of the file, if nothing is cached). Otherwise (finding) it gives an array of the camera's size, resampled from the window of the file found by scaling the box by the ratio of the cached (else file) size to the camera's and rounding, and fails iff this window is empty or leaves the file. Finding: an array returned by a caching read is the cache itself, so writing into it changes later reads.", "quantifier": "all finite histories of read calls with different boxes and cache flags, camera resizes and cache clearings, all resampling methods", "why_tests_cant": "Cache state machine histories.", "anchors": ["src/glimpse/image.py:Image.read"]}
{"id": "C47", "title": "Image constructor falls back to Exif exactly when needed", "statement": "Image(path, cam=...) with imgsz and f, or with imgsz, fmm and sensorsz, is Camera of exactly these arguments whatever the Exif, which is then read only if no datetime is given; a Camera object is used as it is. If neither (imgsz and f) nor (fmm and sensorsz) are given, each of imgsz, fmm and sensorsz that is not given is taken from Exif and everything else is as given; unreadable Exif raises. Findings: fmm and sensorsz without imgsz raises TypeError; f without imgsz raises ValueError whenever Exif has a focal length; Exif without an image size gives a camera of size nan; a focal length recorded as x/0 raises ZeroDivisionError.", "quantifier": "all combinations of camera arguments (keys absent, None or given), datetimes and Exif tags", "why_tests_cant": "Combinatorial argument presence.", "anchors": ["src/glimpse/image.py:Image.__init__"]}
{"id": "C48", "title": "Camera model conversions preserve projection", "statement": "Converting a Camera to Agisoft or Matlab without optimisation gives the same projection function iff k4=k5=k6=0, to OpenCV always, to PhotoModeler (with a sensor size) iff the focal lengths in millimetres are equal, the radial coefficients cancel (k1=k4, k2=k5, k3=k6) and p=0; converting back is exact iff the documented parameters vanish, and exact conversions round trip. Optimisation is done exactly when asked for and k4, k5, k6 are not all zero (Agisoft, Matlab), or the focal lengths differ or any k or p is nonzero (PhotoModeler; finding: also when radial terms cancel); it starts at the converted values and replaces only the documented or selected parameters by the solver's solution. Default points are the centers of about n square cells inside the image; ValueError iff a side rounds to no cell (finding: always for narrow images). An integer selection other than 0 raises and 0 is ignored (finding).", "quantifier": "all camera parameters, image points, selections, numbers of points and solvers", "why_tests_cant": "Continuous domain in many parameters.", "anchors": ["src/glimpse/convert/cameras/matlab.py", "src/glimpse/convert/cameras/opencv.py", "src/glimpse/convert/cameras/agisoft.py", "src/glimpse/convert/cameras/photomodeler.py"]}
{"id": "C49", "title": "SVG shapes: what is written is read back, and paths are read as SVG defines them", "statement": "Points written as a polyline are read back for all points; as a path, for two points or more; as a polygon, exactly if they are closed (open polygons come back closed); as line and circle, exactly if there are 2 and 1 points; as rect and viewBox, if they are a rectangle. For every path text that begins with a moveTo, however its numbers are spelled and separated, the vertices are those of the SVG specification (upper case absolute, lower case relative to the current point, control points dropped, closePath back to the start), provided that no closePath follows a second moveTo. (Refuted in general: every closePath is read as a line to the first point of the whole path, so that two subpaths, the second closed, are read as SVG defines exactly if they start at the same point; leading white space shifts parameters to the next command, silently losing points; two adjacent command letters as in 'ZM' that are not the last are refused; the path written for less than two points cannot be read.)", "quantifier": "all point sequences, number formats and path command sequences", "why_tests_cant": "Unbounded path lengths and command sequences.", "anchors": ["src/glimpse/svg.py:Points.to_element", "src/glimpse/svg.py:Points.from_element", "src/glimpse/svg.py:Points._from_path", "src/glimpse/svg.py:Points._to_path"]}
{"id": "C50", "title": "SVG transform texts are applied function by function", "statement": "Points.transform applies every translate, scale and matrix function of the text, with any separators and number formats, to every point, in the order in which they are written; this is the SVG meaning whenever the functions commute (one function, only translations, only scales). Other functions raise ValueError and wrong numbers of parameters TypeError, wherever they occur in the text. (Refuted in general: SVG applies the functions of a list from right to left; a function with a space before its parenthesis is ignored.)", "quantifier": "all transform texts and points", "why_tests_cant": "Unbounded lists.", "anchors": ["src/glimpse/svg.py:Points.transform"]}
{"id": "C51", "title": "Camera optimization parameter vector packing is a bijection", "statement": "Cameras.set_cameras(params) with a vector [group0 | group1 | ... | cam0 | cam1 | ...] of the right length writes to every camera in a group each parameter selected for the camera from the camera's entry, every other parameter selected for a group of the camera from the group's entry, and changes nothing else; so two vectors give the same cameras iff they agree on all entries except those of cameras in no group and those of group parameters that each camera of the group selects for itself (findings: such entries are accepted but have no effect). Entries beyond the last parameter are ignored; a shorter vector raises ValueError unless, for each camera of each group, the entries left for it are as many as needed or exactly one (finding: a single remaining entry is given to all selected parameters). The initial parameters reproduce the cameras when groups agree. predicted(params) leaves the cameras as they were, unless a prediction raises: then they stay set to params (finding). reset_cameras undoes any calls since the cameras were saved.", "quantifier": "all consistent numbers of cameras, groups and parameter masks, all parameter vectors of any length", "why_tests_cant": "All layouts.", "anchors": ["src/glimpse/optimize.py:Cameras.set_cameras", "src/glimpse/optimize.py:Cameras.reset_cameras", "src/glimpse/optimize.py:Cameras.predicted"]}
{"id": "C52", "title": "RANSAC returns a consistent model", "statement": "ransac considers for each sample the members outside it whose error under the sample's fit is below max_error; if they are more than min_inliers, the fit to all of these is a proposal. It returns the proposal with the smallest mean error over the members it was fitted to (the first of equals), with exactly the members whose error under it is at most max_error, in order, and raises ValueError iff there is no proposal. Finding: these can be fewer than min_inliers. The samples are distinct sets of n distinct indices, never more than iterations or than there are, and exactly that many once every set has been shuffled; n >= size raises ValueError. Finding: n = 0 gives one empty sample and never ends if iterations > 1.", "quantifier": "all data sets, error functions, fits and shuffle sequences, all n, iterations and orders of sets", "why_tests_cant": "All random sample sequences.", "anchors": ["src/glimpse/optimize.py:ransac", "src/glimpse/optimize.py:_ransac_samples"]}
{"id": "C53", "title": "Keypoint matching pairs are exactly those requested", "statement": "KeypointMatcher refuses images that are not in ascending order of time. build_matches stores exactly one entry for each pair (i,j), i<j, that is requested (all pairs by default; otherwise images at most maxdt apart or at an offset in seq) and whose later image is in imgs if given, and no other entry. (Where this differs from the documentation - imgs, matrix shape, no pair at all, empty seq - is shown by refutations.)", "quantifier": "all image time lists and criteria", "why_tests_cant": "All index pairs.", "anchors": ["src/glimpse/optimize.py:KeypointMatcher.__init__", "src/glimpse/optimize.py:KeypointMatcher.build_matches"]}
{"id": "C54", "title": "Dropping images keeps matches aligned", "statement": "drop_images leaves exactly the matches between images that are not dropped, in the same order and each between the same two images, over any sequence of calls; the images left are exactly those with matches left, in the same order, and the matrix has their number of rows and columns. (It also drops images without matches and leaves the keypoints list as it was: refuted.)", "quantifier": "all match matrices, index sets and sequences of drops", "why_tests_cant": "All index sets and histories.", "anchors": ["src/glimpse/optimize.py:KeypointMatcher.drop_images"]}
{"id": "C55", "title": "Camera view box contains the view frustum", "statement": "Camera.viewbox(depth), for a camera without lens distortion, is the smallest box that contains the camera and every world point that is projected into the image frame from at most the given depth along the optical axis: it contains all of these, and each of its six faces touches the camera or such a point at the given depth.", "quantifier": "all cameras without lens distortion, all depths and all image points, not only the image corners", "why_tests_cant": "The frustum is a continuum of points and every orientation must be covered.", "anchors": ["src/glimpse/camera.py:Camera.viewbox"]}
{"id": "C56", "title": "Spherical coordinates round trip", "statement": "Camera.xyz_to_spherical and Camera.spherical_to_xyz are mutually inverse: azimuth in [0, 360), altitude in [-90, 90] and distance > 0 determine the world point and conversely.", "quantifier": "all camera positions and all world points other than the camera position", "why_tests_cant": "Quadrant handling must be right in all directions.", "anchors": ["src/glimpse/camera.py:Camera.xyz_to_spherical", "src/glimpse/camera.py:Camera.spherical_to_xyz"]}
{"id": "C57", "title": "Raster sampling is interpolation of the cells", "statement": "sample(xy, order=0) returns the value of a nearest cell; order=1 returns the bilinear combination of the four surrounding cells: exact at cell centers, exact for planar surfaces (also when extrapolating), and within the range of the values inside the range of the cell centers. Points outside the limits raise, get the fill value, or are extrapolated, as requested, and only those.", "quantifier": "all rasters (any orientation and size) reached by any history of reads, samples, crops and array assignments, all points", "why_tests_cant": "Index arithmetic over all axis orientations, boundaries and cache states.", "anchors": ["src/glimpse/raster.py:Raster.sample", "src/glimpse/raster.py:Raster.Zf"]}
{"id": "C58", "title": "RasterInterpolant honours the requested cell size", "statement": "Interpolating with a target cell size d (or rasters of different cell sizes) resamples a raster of n cells of size d0 along an axis to the whole number of cells nearest to n d / d0, that is to cells of size d0^2/d (when n d/d0 is whole): unchanged for d = d0, never fewer cells for larger d, never more for smaller d. (Finding: n d0 / d is meant.)", "quantifier": "all positive cell sizes, all positive numbers of cells", "why_tests_cant": "All scale factors.", "anchors": ["src/glimpse/raster.py:RasterInterpolant._parse_as_raster", "src/glimpse/raster.py:RasterInterpolant.__call__"]}
{"id": "C59", "title": "Resampling leaves the estimate unchanged", "statement": "When every particle is due a whole number of copies, after systematic resampling the unweighted mean of the particles equals the weighted mean before it, and the mean reported by the tracker, which still applies the weights of the copied particles, equals the mean before it with all weights squared (finding).", "quantifier": "all particles, all weights whose shares are whole multiples of 1/n, all draws in (0,1)", "why_tests_cant": "Weights are real numbers and any number of particles is possible.", "anchors": ["src/glimpse/track/tracker.py:Tracker.resample_particles", "src/glimpse/track/tracker.py:Tracker.particle_mean"]}
{"id": "C60", "title": "Splitting an Observer loses no image", "statement": "Observer.subset(start, end) keeps exactly the images in the interval; Observer.split(breaks, overlap) returns contiguous segments that start with the first image, end with the last, and each start with the last `overlap` images of the segment before; it raises ValueError iff a segment would have fewer than two images. With an integer n>0 the breaks are the first datetime plus multiples of dt = duration/n rounded to a microsecond, as many as fit: n segments ending with the last image when n divides the duration in microseconds; otherwise, whenever dt does not divide the duration, the last image is in no segment, and fewer than n segments result if dt was rounded up (findings). n=0, negative n and dt=0 raise.", "quantifier": "all observers, break lists, segment counts and overlaps", "why_tests_cant": "All datetimes and all segment counts, including durations that are not a multiple of n.", "anchors": ["src/glimpse/track/observer.py:Observer.split", "src/glimpse/track/observer.py:Observer.subset"]}
{"id": "C61", "title": "Observers without images in the tracked period do not matter", "statement": "Tracking with an additional (last) observer that has no image within maxdt of any requested datetime gives the same datetimes, matching images and exceptions as without it, and the same result for every track that does not use it or whose other observers first have an image after the first tracked datetime; every other track that uses it fails with nothing computed. So, with the default masks, every track fails (finding).", "quantifier": "all observers, all sets of two or more motion models, all requested datetimes, tolerances and masks", "why_tests_cant": "All patterns of matching images.", "anchors": ["src/glimpse/track/tracker.py:Tracker.track", "src/glimpse/track/tracker.py:Tracker.initialize_template"]}
{"id": "C62", "title": "Template matching geometry", "statement": "Observer.tile_box(uv, size) is a box of that size inside the image centered within half a pixel of uv per axis, or raises iff it does not fit. The search box of a set of particles holds half a template around every projected particle, is less than two pixels larger than needed, and is skipped iff it leaves the image; otherwise every particle gets a likelihood, which is that of the spline through the mean squared differences of template and displaced tiles, read at the particle; the nodes are one pixel apart and the spline is read at most the template's subpixel offset (half a pixel) outside of them (finding: so it can be outside); a particle displaced by whole pixels from the template's point gets the mean squared difference between the template and the tile displaced by the same amount.", "quantifier": "all images, particles, template sizes and spline degrees", "why_tests_cant": "Real-valued positions, all box sizes, all images.", "anchors": ["src/glimpse/track/observer.py:Observer.tile_box", "src/glimpse/track/tracker.py:Tracker.compute_observer_log_likelihoods"]}
{"id": "C63", "title": "Motion models start and weigh particles as documented", "statement": "initialize_particles draws n particles with the given means and standard deviations around (xy, surface elevation) and velocities (in cylindrical coordinates for the cylindrical models); the motion log likelihood is the squared normalised height difference to the surface over 2 and is 0 where the surface is exact; the constructors turn a number into a surface that has this elevation on the unit square and is undefined (raises) elsewhere (finding), and raise ValueError for every dem_sigma=None, the documented default (finding).", "quantifier": "all motion models, surfaces, draws and particles", "why_tests_cant": "All real parameters and surfaces.", "anchors": ["src/glimpse/track/motion.py:CartesianMotion.initialize_particles", "src/glimpse/track/motion.py:CartesianMotion.compute_log_likelihoods", "src/glimpse/track/motion.py:CylindricalMotion.initialize_particles", "src/glimpse/track/motion.py:TangentCartesianMotion.initialize_particles"]}
{"id": "C64", "title": "Projection is the documented lens model", "statement": "For every point in front of the camera, Camera.xyz_to_uv gives exactly the pinhole projection through the documented distortion model: rational radial factor (k1..k6), tangential terms (p1, p2), focal length and principal point offset from the image center, after dropping the point for earth curvature and refraction when corrected.", "quantifier": "all cameras and world points in front of the camera", "why_tests_cant": "The formula has real parameters with signs and index pairs that must be right everywhere.", "anchors": ["src/glimpse/camera.py:Camera.xyz_to_uv", "src/glimpse/camera.py:Camera._radial_distortion", "src/glimpse/camera.py:Camera._tangential_distortion"]}
{"id": "C65", "title": "Camera parameter selections and bounds", "statement": "Cameras.parse_params(params): documented selections (True: all elements of an attribute; an index or list of indices: those elements) select exactly the named camera parameters; the n-th selected element gets the n-th bound (a single bound applies to all), missing bounds are replaced by the default bounds and then by -inf/inf. For any dictionary: element start(attribute)+i of the camera vector (counted from its end if negative) is selected for each named index i, False naming 0 (findings: False selects, and indices outside an attribute select another attribute's parameter or raise); bounds go to the elements of the last entry so far that selects any (finding: not always their own entry), and the last bounds given to an element count; it raises iff an element is outside the vector, bounds have no target, or their number is neither 1 nor that of the elements.", "quantifier": "all parameter dictionaries, all bounds and defaults", "why_tests_cant": "Dictionaries of any shape and bounds with any pattern of missing values; tests use a few dictionaries.", "anchors": ["src/glimpse/optimize.py:Cameras.parse_params", "src/glimpse/optimize.py:Cameras.camera_bounds"]}
{"id": "C66", "title": "Jacobian sparsity omits no dependency", "statement": "The sparsity structure that Cameras passes to the optimizer is sound: changing a parameter whose column is zero in a residual's row never changes that residual.", "quantifier": "all cameras, groups, masks, controls whose predictions depend only on their own cameras, and parameter vectors", "why_tests_cant": "A missing nonzero only slows or misleads the optimizer silently; it must be absent for every layout of cameras, groups and controls.", "anchors": ["src/glimpse/optimize.py:Cameras._build_sparsity", "src/glimpse/optimize.py:Cameras.residuals"]}
{"id": "C67", "title": "Control weights are relative", "statement": "Setting Cameras.weights rescales the weights to sum to the number of control points, preserving their ratios: a common factor has no effect and equal weights are all one; residuals are the weighted differences between predicted and observed image coordinates.", "quantifier": "all weight vectors with nonzero sum", "why_tests_cant": "Algebraic identity over all real vectors.", "anchors": ["src/glimpse/optimize.py:Cameras.weights", "src/glimpse/optimize.py:Cameras.residuals"]}
{"id": "C68", "title": "Keypoint files are complete and resumable", "statement": "Without overwrite, build_keypoints leaves in memory (unless cleared) and on file (if path is given) the keypoints of every image: those already in memory, else those on file, else those detected; existing files are untouched, and running again after a crash between two files gives the same keypoints and files as one uninterrupted run. With overwrite, keypoints both in memory and on file are recomputed and rewritten. (Refuted: overwrite recomputing everything, since with path keypoints only on file (without clear_keypoints) or only in memory are kept, and exactly those; recovery from a file cut short, since the run fails exactly when, with path and without clear_keypoints, an image without keypoints in memory has such a file.)", "quantifier": "all memory and file states, any crash point between files", "why_tests_cant": "All combinations of states and crash points.", "anchors": ["src/glimpse/optimize.py:KeypointMatcher.build_keypoints"]}
{"id": "C69", "title": "Match files are complete and resumable", "statement": "build_matches stores for each pair the matches on file (if path is given, the file exists and overwrite is not set), else the matches of the keypoints of its two images, which it writes to the pair's file; other files are untouched, keypoints are all loaded or all cleared, and running again after a crash between two files gives the same matches and files as one uninterrupted run. (Refuted: recovery from a file cut short, since the run fails whenever a selected pair has one; clear_matches with filter; image names with dashes: pairs with the same file name get the same matches.)", "quantifier": "all images, keypoints in memory or on file, match files, options and crash points between files, where file names of different pairs differ", "why_tests_cant": "All histories and crash points.", "anchors": ["src/glimpse/optimize.py:KeypointMatcher.build_matches"]}
{"id": "C70", "title": "Matched keypoints satisfy every requested criterion", "statement": "match_keypoints returns, in order, the coordinates in both images (and ratios) of exactly the matches that are mutual (if cross_check), have a descriptor distance ratio below max_ratio and a coordinate distance below max_distance; images without keypoints, or with a single one if ratios are asked for, give no matches. (Refuted: max_distance fails with IndexError whenever no match is left to test; ratios fail with ZeroDivisionError whenever the second best descriptor of a mutual match is at distance 0; limits of 0 are ignored.)", "quantifier": "all results of the descriptor matcher and limits", "why_tests_cant": "All match lists.", "anchors": ["src/glimpse/optimize.py:match_keypoints"]}
{"id": "C71", "title": "Match counts and breaks", "statement": "matches_per_image counts the points of every match once for each of its two images; images_per_image is the number of distinct images with matches to each image; match_breaks() lists, ascending and once each, exactly the images except the last from which no match starts. With all matches starting from one image, match_breaks(min_matches) adds the images whose limit, min_matches or the number of images from there on, exceeds the number of these matches. (Refuted: match_breaks(min_matches) raises once matches start from two different images.)", "quantifier": "all match matrices", "why_tests_cant": "All matrices.", "anchors": ["src/glimpse/optimize.py:KeypointMatcher.matches_per_image", "src/glimpse/optimize.py:KeypointMatcher.images_per_image", "src/glimpse/optimize.py:KeypointMatcher.match_breaks"]}
{"id": "C72", "title": "SVG files are read into image coordinates", "statement": "If every drawn element (image, path, polyline, polygon, line, circle, rect inside svg and g elements) can be read, read() returns nested dictionaries in which, under every path of names, the points of exactly the elements with those names are listed in document order, transformed by the transforms of their groups and their own and then placed and scaled such that the last image fills (0, 0) to its width and height, or to imgsz. Without an image, coordinates are those of the SVG and imgsz raises ValueError; an element that cannot be read makes read fail. (Refuted: group transforms are applied before those of their elements, SVG has the opposite order.)", "quantifier": "all element trees, keys and image sizes", "why_tests_cant": "Unbounded trees.", "anchors": ["src/glimpse/svg.py:read"]}
{"id": "C73", "title": "Control points and matches follow the image size of their cameras", "statement": "After any sequence of changes of the camera (parameters, resizes) and resizes of a Points object, Points.resize(...) that succeeds makes the observed image coordinates exactly those at construction times the ratio of the current to the original image size, in each direction; the same holds for both cameras of Matches.resize(...), also after a Matches.resize that failed midway. Projections by a camera resized any number of times scale by the same ratio, so that after resizing, predicted and observed coordinates, and hence residuals, are those at construction scaled alike. Points made from ray directions refuse to predict (ValueError) exactly when the camera has moved since construction. Lines: merged points stay the concatenation of the lines, and every observed point is paired with a nearest projected point. Findings: RotationMatches (and subclasses) inherit resize but never have the image sizes it needs: it raises AttributeError after having resized the first camera.", "quantifier": "all cameras with non-zero image size, all point lists, all finite histories of camera operations and resizes, all size arguments", "why_tests_cant": "histories are unbounded; tests resize once from the original size", "anchors": ["src/glimpse/optimize.py:Points", "src/glimpse/optimize.py:Lines", "src/glimpse/optimize.py:Matches.resize", "src/glimpse/camera.py:Camera.resize"]}
{"id": "C74", "title": "Matches of true image points have zero residuals, whichever type of matches is used", "statement": "For two cameras at the same place (and the same elevation correction) and any world points in front of both at which the lenses can be inverted, Matches made of their images predicts exactly these images for either camera, and RotationMatchesXYZ predicts for both cameras the same rays: the unit vectors towards the points. RotationMatches predicts and observes exactly what Matches of the same image points does, wherever the cameras moved together and turned since construction, as long as image size, focal length, principal point and distortion are unchanged, and raises ValueError if and only if the cameras are apart or one of these changed; RotationMatchesXY predicts the camera coordinates of these image coordinates. to_type(t) equals construction of type t from the same image points. Rays have unit length. Findings: RotationMatchesXY and RotationMatchesXYZ cannot be constructed without image coordinates (AttributeError), although these are documented as optional.", "quantifier": "all camera pairs, all world points, all image points, all four match types", "why_tests_cant": "residuals of all points under all camera orientations cannot be enumerated", "anchors": ["src/glimpse/optimize.py:Matches.predicted", "src/glimpse/optimize.py:RotationMatches", "src/glimpse/optimize.py:RotationMatchesXY", "src/glimpse/optimize.py:RotationMatchesXYZ", "src/glimpse/optimize.py:Matches.to_type"]}
{"id": "C75", "title": "Matches.filter keeps exactly the pairs that meet every limit", "statement": "Matches.filter, and RotationMatches.filter for its image coordinates and weights, leaves, in their order and alike for both cameras and the weights, exactly the pairs that are among the n_best by weight, have weight >= min_weight, a defined prediction error <= max_error and a distance <= max_distance (coordinates of the other camera scaled to the image size of cam; limits times the image width if scaled); a missing or zero limit does not apply. It raises if and only if weights are needed but missing, or errors are needed and the cameras are apart, and then changes nothing. With n_best alone, min(n_best, size) pairs remain and no dropped pair has a greater weight than a kept one. Findings: RotationMatches.filter does not filter the camera coordinates used for predictions, so predicted and observed no longer correspond (different lengths); RotationMatchesXY.filter leaves observed and predicted unchanged.", "quantifier": "all pairs, weights, limits, reference cameras, and all results of argsort that sort by falling weight", "why_tests_cant": "every combination of limits and data", "anchors": ["src/glimpse/optimize.py:Matches.filter"]}
{"id": "C76", "title": "Image.project shows what the other camera would see", "statement": "Image.project(cam) raises ValueError when the cameras' positions differ; otherwise it returns an array of the image size of cam in which every pixel whose center is the image (in cam) of a world point in front of the image's own camera has the value of the source image at the image of the same point: that of the pixel containing it ('nearest'), or the bilinear interpolation between pixel centers ('linear'), and nan when it falls outside the rectangle of pixel centers. Projecting into the image's own view leaves every pixel unchanged (cameras without distortion; any camera at whose pixel centers the lens is inverted exactly), values never leave the range of the image. Findings: pixels that look behind the source camera get the bottom-right pixel of the source with method 'nearest' (scipy 1.4.1 does not treat nan as outside); for integer images there is no nan, pixels outside get an arbitrary integer, and interpolated values are truncated.", "quantifier": "all camera pairs of at least 2 x 2 pixels at the same place, all images, both methods, all pixels", "why_tests_cant": "every pixel of every image under every rotation", "anchors": ["src/glimpse/image.py:Image.project"]}
{"id": "C77", "title": "Metadata values are those stored", "statement": "For tags as loaded by piexif: Exif.datetime of a time stamp 'YYYY:MM:DD HH:MM:SS' of any valid date is this date and time; the digits of SubSecTimeOriginal (1 to 6) are decimals of the second; any other non-empty sub-second text raises ValueError, and so does a stamp of this form that is no date of the Gregorian calendar or no time of day. Without thumbnail=True exactly the groups 1st and thumbnail are dropped. exposure, aperture and fmm of a rational tag n/d are the quotient, None if the tag is missing or n = 0, and raise ZeroDivisionError if d = 0; imgsz and iso are the integers stored, None if missing or zero. sensorsz looks up make and model irrespective of blanks around them. Findings: ISOSpeedRatings with two values gives their quotient as film speed.", "quantifier": "all dates, all digit strings, all integers, all tag dictionaries", "why_tests_cant": "all values and all texts", "anchors": ["src/glimpse/exif.py:Exif.datetime", "src/glimpse/exif.py:Exif.parse_tag", "src/glimpse/exif.py:Exif.sensorsz", "src/glimpse/exif.py:Exif.imgsz"]}
{"id": "C78", "title": "Exif.dump encodes exactly the tags, or refuses", "statement": "Exif.dump succeeds if and only if every group is known and every tag of every group (except thumbnail) is known, and otherwise raises ValueError. It passes to piexif, group by group in the same order, exactly the values of the tags under their numerical codes (as far as the codes of the tags in a group differ), with no name left.", "quantifier": "all tag dictionaries, all assignments of codes to names", "why_tests_cant": "all combinations of tags", "anchors": ["src/glimpse/exif.py:Exif.dump"]}
{"id": "C79", "title": "Circles of grid cells lie on the circle", "statement": "helpers.bresenham_circle(center, radius) for integer centers and radii returns an array if and only if radius >= 0. Every returned cell is less than one cell from the circle (its squared distance from the center differs from radius**2 by at most its larger offset, which never exceeds radius). The returned cells are those of a closed path of neighbouring cells, symmetric in x, y and the diagonals, that starts and ends at (x, y + radius), without the cells reached by a step of (1, -1), (-1, 1) or no step. Finding: because steps (1, -1) and (-1, 1) are mistaken for duplicates, the path returned for every radius >= 2 has gaps (it is connected exactly when radius <= 1).", "quantifier": "all centers and all integer radii", "why_tests_cant": "an unbounded family of rasterised circles", "anchors": ["src/glimpse/helpers.py:bresenham_circle"]}
{"id": "C80", "title": "Raster.fill_circle fills the circle and nothing else", "statement": "Raster.fill_circle sets exactly the cells of the raster that lie, in their row, between (or on) cells of the rasterised circle around the cell of center with the radius radius / d[0] rounded, and changes no other cell; in particular no cell further from the center cell than the rounded radius + 1/2. The row of the center is filled from side to side, and circles that round to a radius of 0 or 1 cells are filled completely (1 or 3 x 3 cells). It fails if and only if the rounded radius is negative, so, for x decreasing, for every positive radius above half a cell. Finding: for every rounded radius r >= 2 there is a row n below the center, 1 <= n < r, n**2 <= r, of which no cell but the leftmost is filled: circles have holes.", "quantifier": "all rasters, center cells, radii, cell sizes and values", "why_tests_cant": "all radii and grids", "anchors": ["src/glimpse/raster.py:Raster.fill_circle", "src/glimpse/helpers.py:bresenham_circle"]}
{"id": "C81", "title": "Points at given distances along a line", "statement": "helpers.interpolate_line(vertices, x, xi) returns, for every xi within the range of x, the point of the polyline at that distance: the same fraction of the way between two neighbouring vertices as xi is between their distances; x may rise (not necessarily strictly) or fall strictly, and defaults to the length of the line up to each vertex. With error=True it raises ValueError if and only if some xi is out of range; with error=False, distances beyond an end give the vertex at this end or, for rising x, the fill value of this end. n gives n points evenly spaced in x from the first to the last vertex; dx is as n with |length / dx| + 1 points if this ratio is an integer, and its rounded value otherwise. Without xi, n and dx it raises ValueError. Findings: for falling x the two fill values are exchanged; a dx that does not divide the length gives no points at all (dx > 2 length), the first vertex alone (2/3 length < dx < 2 length, dx != length), or points further apart than dx.", "quantifier": "all lines in any dimension, all rising or falling distances, all requested distances, all results of argsort that sort", "why_tests_cant": "a continuum of lines and distances", "anchors": ["src/glimpse/helpers.py:interpolate_line"]}
{"id": "C82", "title": "Tiles do not depend on exposure", "statement": "helpers.normalize(array) returns an array of mean 0 and variance 1 that is an increasing linear function of the input, and nan exactly if all values are equal. Hence Tracker.extract_tile returns the same tile and histogram after any change of gain and offset of the image (in color or gray). With a histogram to match, it returns the same after any change of the gray values that keeps their order; and a template's own scene, re-exposed in any such way and matched to the histogram of the template, gives exactly the tile of the template.", "quantifier": "all tiles, all median filters, all gains and offsets, all increasing transformations of gray values", "why_tests_cant": "a continuum of images and exposures", "anchors": ["src/glimpse/helpers.py:normalize", "src/glimpse/track/tracker.py:Tracker.extract_tile"]}
{"id": "C83", "title": "Gaussian filter with excluded cells", "statement": "helpers.gaussian_filter(array, mask, fill) gives each included cell (and, with fill, each excluded cell with an included cell in its window) the average of the included cells in its window, weighted by the gaussian and normalised by the weight of the included cells only: nan and outliers in excluded cells have no effect and the result is within the range of the averaged values. Excluded cells keep their values without fill, and are nan with fill if no included cell is near. Finding: for integer arrays, scipy truncates the weight to 0, so that every included cell with an excluded cell in its window is lost (nan, stored as garbage).", "quantifier": "all arrays, masks, weights (nonnegative, positive at the center), cells", "why_tests_cant": "unbounded arrays of reals", "anchors": ["src/glimpse/helpers.py:gaussian_filter"]}
{"id": "C84", "title": "Maximum filter with excluded cells and filled crevasses", "statement": "helpers.maximum_filter(array, mask, fill) gives each included cell the greatest of the included cells in its window; without fill excluded cells keep their values; with fill, an excluded cell gets the greatest included value in its window if one exceeds the least number of the data type, and keeps its value otherwise. Raster.fill_crevasses with these filters keeps included cells within the range of the included values, does not touch excluded cells without fill, and with fill gives those near an included cell a value in this range. Finding: where all included cells in a window with an excluded cell are below the least finite number (-inf), the result is that number.", "quantifier": "all arrays, masks, windows, weights, cells", "why_tests_cant": "unbounded arrays of reals", "anchors": ["src/glimpse/helpers.py:maximum_filter", "src/glimpse/raster.py:Raster.fill_crevasses"]}
{"id": "C85", "title": "Constructed camera models are consistent, and inconsistent ones are rejected", "statement": "optimize.Cameras(cams, controls, cam_params, group_indices, group_params), once its parameters are built, raises ValueError exactly if no control refers to the cameras, a group that names 'f' or 'c' has cameras with different image sizes, a camera is in several groups that select the same parameter (or repeatedly in one of these), or a camera with parameters of its own or of a group appears in no control. Every model accepted for distinct cameras has valid groups and one mask of 20 entries per camera and group, keeps exactly the controls that refer to its cameras, and saves the camera vectors: the consistency that C51 and C66 assume.", "quantifier": "all lists of cameras, controls, groups and parameter dictionaries", "why_tests_cant": "unbounded lists of cameras, controls and groups", "anchors": ["src/glimpse/optimize.py:Cameras.__init__", "src/glimpse/optimize.py:Cameras._test", "src/glimpse/optimize.py:Cameras.prune_controls"]}
{"id": "C86", "title": "Names, start values and bounds of the optimised parameters", "statement": "The parameters of a Cameras model have one entry per selected parameter, in the order of the parameter vector, with distinct names (camN_ or groupN_, attribute, index). The entry of a camera has the bounds given in cam_params or else the default bounds (position and view direction: none; imgsz, f: at least 0; c: half the image size; k1, k4, k5, k6: f/4000; k2, k3: f/8000; p: f/40000, f the mean focal length); that of a group the bounds given in group_params or else the tightest bounds of its cameras. It starts at the value of the camera, or the mean over the cameras of the group, moved into its bounds by lmfit: hence the start is the state of the cameras if and only if this is within all bounds. Finding: otherwise the optimiser silently starts from different cameras.", "quantifier": "all cameras, groups, parameter dictionaries accepted by the constructor", "why_tests_cant": "unbounded numbers of cameras and groups, real parameters", "anchors": ["src/glimpse/optimize.py:Cameras.update_params", "src/glimpse/optimize.py:Cameras.camera_bounds", "src/glimpse/optimize.py:Cameras._lmfit_labels"]}
{"id": "C87", "title": "Cameras written to JSON read back the same", "statement": "Camera.from_json(path) of Camera.to_json(path) gives a camera with the same 20 parameters, nan and infinities included, whose original state is this state. For any choice of attributes the camera read has the values of the attributes written and the defaults of the others (focal length and principal point may be written in millimetres with the sensor size); reading raises ValueError exactly for combinations that the constructor refuses, and TypeError if the image size is missing. A file with numbers is read as the camera constructed with them; keyword arguments override the file. correction=True stands for the Earth's equatorial radius 6.3781e6 and refraction 0.13. Findings: sensor size and elevation corrections are not written by default; a written dictionary of corrections cannot be read, even if overridden (TypeError); null and empty arrays for k, p, xyz or viewdir give nan instead of the defaults; a principal point that is all nan is read as 0.", "quantifier": "all cameras, all lists of attributes, all files and keyword arguments", "why_tests_cant": "unbounded choice of attributes and real parameters", "anchors": ["src/glimpse/camera.py:Camera.to_dict", "src/glimpse/camera.py:Camera.to_json", "src/glimpse/camera.py:Camera.from_json"]}
{"id": "C88", "title": "Subsets of a raster by indexing", "statement": "raster[i, j] (and raster[i]) selects the rows and columns that Python's integers and slices select: each cell of the result has the value and the center of the cell it was selected from, the cell size is multiplied by the step (negative steps turn the axis), and the datetime is kept. It raises IndexError if nothing is selected or an index is neither an integer nor a slice, and ValueError for step 0. Findings: the index -1 selects nothing; two columns (or rows) selected with a negative step raise ValueError (step -1) or get wrong coordinates; the coordinate reference system is dropped; the x-coordinates of a subset of three or more columns are a view of those of the raster, so that shifting the subset moves the raster's coordinates but not its limits.", "quantifier": "all rasters, indices and slices (start, stop, step of any sign)", "why_tests_cant": "unbounded sizes, bounds and steps, real limits", "anchors": ["src/glimpse/raster.py:Raster.__getitem__", "src/glimpse/raster.py:Grid._parse_xy"]}
{"id": "C89", "title": "Images of elevation models", "statement": "Camera.project_dem(dem, values, mask, return_depth) without rescaling (scale_limits (1, 1), the default), for every tile size with overlaps up to 3/4 of it and every order in which the tiles are processed: a pixel is nan exactly if no cell that the mask selects (default: those with an elevation) has its center projected into it; otherwise its value in each layer (values, and the depth along the optical axis last) is the mean over the cells of the last processed tile that has such cells: between the smallest and largest value of these cells, and the mean of all of them if each tile has all or none. It raises ValueError for values or masks of another shape and if there is neither values nor depth. Findings: pixels seen by several tiles depend on the tile size and, in parallel, on the order of completion; hidden cells are averaged with visible ones; with scale_limits that exclude 1, the depth without values raises; a center projected exactly onto the right or bottom border raises ValueError.", "quantifier": "all cameras, elevation models, values, masks, tile sizes, orders of completion", "why_tests_cant": "unbounded rasters and tiles, all schedules of the workers, real projection", "anchors": ["src/glimpse/camera.py:Camera.project_dem", "src/glimpse/helpers.py:rasterize_points", "src/glimpse/raster.py:Grid.tile_indices", "src/glimpse/raster.py:Raster.__getitem__"]}
{"id": "C90", "title": "Test for reversible distortion", "statement": "Camera.reversible() is True exactly if along the horizontal and the vertical axis of the image the distorted coordinates at as many equally spaced samples as pixels do not decrease. If it is False and there is no tangential distortion, the distortion can indeed not be inverted: two different points of the image have the same distorted coordinates. It is True for radial distortion with non-negative k1, k2, k3. Finding: True does not imply that the distortion can be inverted in the image, for any image size: square images with k1 = -2/7 (focal length half the width) are accepted although the corner coincides with the point halfway to the center.", "quantifier": "all cameras with positive focal lengths", "why_tests_cant": "real distortion coefficients, unbounded image sizes, continuity arguments", "anchors": ["src/glimpse/camera.py:Camera.reversible", "src/glimpse/camera.py:Camera._distort"]}
{"id": "C91", "title": "Undistortion by regula falsi", "statement": "Undistorting by the regula falsi method keeps a solution once it has been found, whatever the number of iterations, and otherwise returns the iterate at which the last two residuals agree in a coordinate, or the last one. Finding: without tangential distortion, points on the horizontal or vertical axis through the principal point are never undistorted: the result is half of the distorted coordinates.", "quantifier": "all cameras, points, numbers of iterations", "why_tests_cant": "unbounded iteration over real numbers", "anchors": ["src/glimpse/camera.py:Camera._undistort_regulafalsi"]}
{"id": "C92", "title": "Horizon of a raster", "statement": "Raster.horizon, from a position within the bounds of the raster, looks along each heading (degrees clockwise from north) at the cells of the digital line from the cell of the position, which is left out, to the cell where the ray leaves the raster. The point of a heading is the center and elevation of the first cell seen at the greatest elevation angle (with the correction for the squared distance), ignoring missing values, and there is none if no valid cell follows. The result is the maximal runs of consecutive headings that have a point, in order, the run at the end being joined to that at the start; each point occurs exactly once. Findings: ValueError if a line has no valid cell, so always from inside a border cell with the default headings; from outside of the raster it always raises.", "quantifier": "all rasters, positions, headings and elevation corrections", "why_tests_cant": "unbounded rasters, real positions and headings", "anchors": ["src/glimpse/raster.py:Raster.horizon", "src/glimpse/helpers.py:bresenham_line", "src/glimpse/helpers.py:intersect_rays_box", "src/glimpse/helpers.py:boolean_split"]}
{"id": "C93", "title": "Rasters in files", "statement": "Raster.open refuses (ValueError) limits that do not overlap the file; otherwise the raster's limits are the outer edges of the rows and columns of the file that overlap the requested limits, and its size, known before anything is read, is theirs, or with a target cell size the least number of cells that are not larger. Reading gives exactly the cells of the file (resampled by GDAL if a cell size is given) with the given missing value, or else the non-zero no-data value of a float raster, made nan. After any history of reads, uses of the array and clearings of the cache, the size and limits are the same, reads give the same picture, and reads of a box that part of it, cached or (at the file's cell size) not; boxes out of bounds are refused. Findings: reading a box with caching when nothing is cached replaces the raster by the box and crops twice; a no-data value of zero is not replaced; with a finer cell size uncached reads of small boxes fail; Grid.read keeps the size of the file for the cropped limits and ignores the cell size.", "quantifier": "all files, limits, cell sizes, missing values, boxes and histories of reads", "why_tests_cant": "unbounded histories and sizes, real limits and cell sizes", "anchors": ["src/glimpse/raster.py:Raster.open", "src/glimpse/raster.py:Raster.read", "src/glimpse/raster.py:Raster.array", "src/glimpse/raster.py:Raster.size", "src/glimpse/raster.py:Grid.read"]}
{"id": "C94", "title": "Gradients and illumination of rasters", "statement": "Raster.gradient, of the values of a differentiable surface at the cell centers, gives in every cell and for either orientation of the axes the partial derivatives at points between the neighbouring cell centers in x and in y (at the border, between the cell and its one neighbour); so the slopes of a plane exactly, and those of a quadratic surface exactly away from the border. Rasters with fewer than two rows or columns are refused (ValueError). Findings: Raster.hillshade, for either orientation, shades the surface as if the light was at azimuth 180 - azimuth (light from the north is shown as light from the south): a slope that faces away from the light is shown fully lit.", "quantifier": "all rasters, surfaces and light directions", "why_tests_cant": "differentiable surfaces, real coordinates and angles", "anchors": ["src/glimpse/raster.py:Raster.gradient", "src/glimpse/raster.py:Raster.hillshade", "src/glimpse/raster.py:Grid.d"]}
{"id": "C95", "title": "Orienting the cameras of an observer", "statement": "The objective minimised by ObserverCameras.fit is, for every list of view directions, the sum of anchor_weight / 2 times the squared change of the anchors' directions and the absolute differences between the unit world rays of matched points; it is never negative and zero exactly if the anchors keep their directions and all matched rays agree. Evaluating it sets the view directions of the cameras and nothing else. For every optimiser, that is any strategy of evaluations, a fit that returns leaves the cameras as they were when the ObserverCameras was made; with consistent matches it returns. The gradient is right for images without matches. Findings: the gradient returned for matched images is not that of the objective (rays are normalised in the objective but not in the gradient, and the second camera of a match gets minus the gradient of the first); an interrupted fit leaves the cameras at the directions evaluated last.", "quantifier": "all cameras, matches, anchors, weights, view directions and optimisers", "why_tests_cant": "real view directions, derivatives, unbounded histories of evaluations", "anchors": ["src/glimpse/optimize.py:ObserverCameras.__init__", "src/glimpse/optimize.py:ObserverCameras.set_cameras", "src/glimpse/optimize.py:ObserverCameras.reset_cameras", "src/glimpse/optimize.py:ObserverCameras.fit", "src/glimpse/optimize.py:RotationMatchesXYZ.predicted", "src/glimpse/camera.py:Camera.Rprime"]}
{"id": "C96", "title": "fitting cameras leaves them as they were", "statement": "Cameras.fit without iterations, for every optimiser (any strategy that evaluates residuals at parameter values of its choice, then returns or raises), leaves every camera and the object as they were if it returns. With cam_params or group_params to fit iteratively first, a fit that returns leaves its cameras as they were when the Cameras object was made (or last saved), whatever they were when fit was called, leaves other cameras alone, and leaves as initial parameter values those of these cameras. Findings: if scale factors or the sparsity structure were built, as by default, an iteration whose number of parameters is not that of the object is refused by the optimiser (ValueError) since it is given the object's; iterations ignore group_indices: they treat all cameras as one group and so set the cameras of all groups to shared values before the final run.", "quantifier": "all cameras, controls, parameters, iterations and optimisers", "why_tests_cant": "unbounded histories of evaluations by any optimiser", "anchors": ["src/glimpse/optimize.py:Cameras.fit", "src/glimpse/optimize.py:Cameras.update_params", "src/glimpse/optimize.py:Cameras.reset_cameras", "src/glimpse/optimize.py:Cameras.set_cameras", "src/glimpse/optimize.py:Cameras.residuals"]}
{"id": "C97", "title": "sampling on a grid and resampling", "statement": "Raster.sample((x, y), grid=True) of a raster of two or more rows and columns, for increasing or decreasing x and y in its limits, returns one value for each pair, and the raster (values, nan cells, coordinates, later samples) is as before. Each value is that of sampling at the point (bilinear), unless lower than every value of the raster, so always between the outer cell centers. Between the outer cell centers, a sample to which nan cells do not contribute is the combination of the other cells, and one to which they do is nan provided that the lowest number of the type is low enough for their weight. Out of the limits: ValueError, or the fill value, as requested. resample(grid) gives the raster of the samples at the cell centers of the grid, with its limits and coordinates; resampling a raster with data to its own grid keeps all values and nan cells. Findings: with fill_value=None values out of the limits are not extrapolated but those of the nearest point in the limits; in the outer half cells, extrapolated values below the lowest cell become nan, and next to a nan cell the sample is huge (half the lowest number of the type, sign changed); a raster of nan gives the lowest number of the type; coordinates out of order are refused but the raster is left with the lowest number in place of nan; with a single row the samples are of shape (len(x), len(x)).", "quantifier": "all rasters reached by any history, all coordinate vectors and grids, all lowest numbers", "why_tests_cant": "real coordinates, arrays of any size with nan anywhere, state after exceptions", "anchors": ["src/glimpse/raster.py:Raster.sample", "src/glimpse/raster.py:Raster._sample_grid", "src/glimpse/raster.py:Raster._sample_1d", "src/glimpse/raster.py:Raster.resample", "src/glimpse/helpers.py:numpy_dtype_minmax"]}
{"id": "C98", "title": "rasterizing points and polygons", "statement": "Raster.rasterize returns a copy of the array in which each cell that points belong to (each cell includes its first edges, the last cells also the limits) holds the mean of their values; points outside of the raster are ignored; the other cells and the raster itself are unchanged; values of another length than the points are refused. Raster.rasterize_polygons returns a mask of the shape of the raster that is True exactly where the cell center is inside (odd number of sides crossed by a ray) one of the polygons and not inside any of the holes, for either direction of the axes and closed or open rings, for centers in general position. Findings: cells without points are not NaN as documented; in a raster of integers the means are truncated; a hole cuts all polygons, also an island inside of it.", "quantifier": "all grids with increasing or decreasing axes, all points, values, polygons and holes", "why_tests_cant": "unbounded numbers of points and vertices with real coordinates", "anchors": ["src/glimpse/raster.py:Raster.rasterize", "src/glimpse/raster.py:Raster.rasterize_polygons", "src/glimpse/helpers.py:polygons_to_mask", "src/glimpse/helpers.py:rasterize_points"]}
{"id": "C99", "title": "names of images and extensions of files", "statement": "strip_path returns the last component of a path without its extensions: all of them (True or a negative number), none (False or 0), or at most n. KeypointMatcher names its files after images by it: it is constructed exactly if the names of all images differ, and then no two images share a file; otherwise ValueError. The extension that decides on the format of a file is what follows the last dot of the last component, unless only dots precede it. Finding: everything after the first dot is dropped from names of images, so that e.g. 2010.05.01.jpg and 2010.05.02.jpg are refused.", "quantifier": "all paths (strings), all numbers of extensions, all lists of images", "why_tests_cant": "paths are arbitrary strings with any number of separators and dots", "anchors": ["src/glimpse/helpers.py:strip_path", "src/glimpse/optimize.py:KeypointMatcher._prepare_image_basenames", "src/glimpse/helpers.py:gdal_driver_from_path"]}
{"id": "C100", "title": "writing rasters and images to file", "statement": "write_raster (and so Raster.write and Image.write) uses the driver asked for, or the first registered one of the right kind that lists the extension of the path in lower case; unsupported types, unknown drivers, paths without a driver and drivers that cannot write raise ValueError and change no file. Otherwise the file holds exactly the given bands, transform, projection and no-data value and no other file is changed. A raster written and opened has the same limits, size and values, except that values equal to the no-data value become NaN. Findings: an invalid crs is noticed only after the file has been created, so that the previous content is lost although ValueError is raised; the nan argument of Raster.write does not replace NaN values in the file.", "quantifier": "all arrays, paths, registries of drivers, crs, transforms, no-data values and previous contents of the file system", "why_tests_cant": "any raster, any registry of drivers and any previous file contents", "anchors": ["src/glimpse/helpers.py:write_raster", "src/glimpse/helpers.py:crs_to_wkt", "src/glimpse/helpers.py:gdal_driver_from_path", "src/glimpse/raster.py:Raster.write", "src/glimpse/raster.py:Raster.open", "src/glimpse/image.py:Image.write"]}
{"id": "C101", "title": "equality and copies of grids and rasters", "statement": "Grids are equal exactly if their shapes and limits are equal; rasters of the same size exactly if their limits and all values are equal. Equality of rasters is symmetric. A copy of a grid whose size is an array, and of a raster without NaN, is equal to it and keeps limits, values and datetime; the grid of a raster has its size and limits. Findings: Grid.copy raises AttributeError for a grid constructed with a tuple as size; the crs is lost by a copy; a raster with NaN is not equal to its copy nor to itself; rasters of different shapes can be equal (broadcasting), so that equality is not transitive.", "quantifier": "all grids and rasters", "why_tests_cant": "arrays of any size with real or NaN values", "anchors": ["src/glimpse/raster.py:Grid.__eq__", "src/glimpse/raster.py:Grid.copy", "src/glimpse/raster.py:Raster.__eq__", "src/glimpse/raster.py:Raster.copy", "src/glimpse/raster.py:Raster.grid"]}
{"id": "C102", "title": "annotations written as SVG are read back", "statement": "svg.write, with any indentation of blanks, gives XML that parses to the same elements, attributes and texts (special characters escaped); only blank texts differ. Annotations (lines of at least two points, named by id, in nested named groups) of an image, built by svg(image(...), path(...), g(...)), written and read with read(key='id'), give the same points under the same names in document order, scaled to imgsz if given. svg() keeps the attributes given and, if neither width nor height are given, takes those of the last image. Findings: an element that follows a group is indented one level too little; names and values with braces lose the braces and what is between them when read, so that names can collide.", "quantifier": "all trees of elements, attributes and texts of printable ASCII characters, all indentations, all trees of annotations, all image sizes", "why_tests_cant": "trees of any depth, texts of any length, numbers of any printed form", "anchors": ["src/glimpse/svg.py:svg", "src/glimpse/svg.py:g", "src/glimpse/svg.py:image", "src/glimpse/svg.py:path", "src/glimpse/svg.py:write", "src/glimpse/svg.py:read", "src/glimpse/svg.py:_indent_etree", "src/glimpse/svg.py:_strip_etree_namespaces"]}
{"id": "C103", "title": "flat JSON arrays have the same content", "statement": "write_json(obj, flat_arrays=True, indent=n) gives the text of write_json(obj, indent=n) up to whitespace outside strings, if no string has an opening bracket and no string in an array has blanks, commas or closing brackets. Arrays of numbers and words are written on one line as without indent, everything else as with it. Negative indents leave the arrays as they are. Findings: strings in arrays lose their blanks and get one after each comma; arrays of arrays stay on several lines; without indent flat_arrays raises TypeError.", "quantifier": "all nested objects and arrays of numbers and printable ASCII strings, all indents", "why_tests_cant": "values of any depth and size; the regular expression sees only the text", "anchors": ["src/glimpse/helpers.py:write_json"]}
{"id": "C104", "title": "scale factors of camera parameters are about one pixel", "statement": "Cameras.camera_scales(cam, controls) gives twenty positive factors. Changing the principal point or the image size by its factor displaces every image point by exactly one pixel; both focal lengths, a point at the mean distance from the center; a tangential coefficient, such a point on the diagonal. One degree of roll displaces a point at the mean distance by the inverse of its factor, and yaw or pitch changed by the factor times the image size moves a point from one edge to the opposite one. For the position the world points of the camera's own Points and Lines count, except directions; without any the factor is one. The scales of a model are the factors of each camera's own parameters and their means over each group, in the order of the parameter vector. The mean distance is that of the points of a square of the mean size to its center. Findings: the radial factors (of numerator and denominator) are too large by powers of two, so that points at the mean radius move by 0.71, 0.35 and 0.18 pixels; with n world points at the same distance the position factors are sqrt(n) times too large, as the norm is taken of the whole matrix.", "quantifier": "all cameras with positive sizes and focal lengths, all controls, all groups", "why_tests_cant": "real parameters, any number of world points and cameras; examples cannot show the exact displacement", "anchors": ["src/glimpse/optimize.py:Cameras.camera_scales", "src/glimpse/optimize.py:Cameras._build_scales"]}
{"id": "C105", "title": "keypoints and matches built in parallel are those of a sequential run, under every schedule", "statement": "build_keypoints(parallel=n) and build_matches(parallel=n) give the same keypoints, matches and files as parallel=False, whatever the order in which the steps of the workers are executed, with processes and with threads: reading and writing of shared files and memory are separate steps. A run always ends, after a bounded number of steps, and never deadlocks, although clearing keypoints waits for all earlier images. At every moment each file is as before, as at the end, or being written by a worker, so a run stopped when no file is being written can be resumed. convert_matches and filter_matches put each result in its place in whatever order results arrive. Finding: with processes clear_keypoints clears nothing in the calling process.", "quantifier": "all interleavings of the steps of any number of workers, all stopping points, all calls whose keypoints are available and whose file names are distinct", "why_tests_cant": "schedules and crash points are not controlled by tests; the number of interleavings is exponential", "anchors": ["src/glimpse/optimize.py:KeypointMatcher.build_keypoints", "src/glimpse/optimize.py:KeypointMatcher.build_matches", "src/glimpse/optimize.py:KeypointMatcher.convert_matches", "src/glimpse/optimize.py:KeypointMatcher.filter_matches", "src/glimpse/config.py:backend"]}
{"id": "C106", "title": "tracks computed in parallel", "statement": "Tracker.track(parallel=n) with processes ends under every schedule, never gets stuck, and returns for each motion model a track of that model, computed in the state (random generator, templates) a worker has after some of the earlier tracks; so tracks that do not depend on that state are those of parallel=False. Findings: all workers start with copies of the same random generator, so with as many workers as tracks there are runs in which all tracks use the same random numbers and tracks of equal models are equal; with threads (config.backend) the particles are shared and a track can report the particles of another.", "quantifier": "all interleavings of any number of workers, all motion models and random generators", "why_tests_cant": "depends on the schedule; a test with few tracks sees one schedule", "anchors": ["src/glimpse/track/tracker.py:Tracker.track", "src/glimpse/config.py:backend"]}
{"id": "C107", "title": "calibrations read from XML files (Agisoft, OpenCV)", "statement": "Agisoft.from_xml gives the numbers of the first calibration element below the root, each parameter by the last child of that name and 0 when not stated, with the image size from width and height; every other file fails, with ValueError (no calibration or another projection), KeyError (no size) or TypeError (no focal length or no number). OpenCV.from_xml gives focal lengths, principal point and coefficients of the camera_matrix and distortion_coefficients however the numbers are separated, and a written file reads back. Findings: a calibration element without children counts as missing; an OpenCV number with a capital E is read as two numbers.", "quantifier": "all XML trees (any depth, other elements, repeated elements), all numbers and separators", "why_tests_cant": "all trees and all spellings", "anchors": ["src/glimpse/convert/agisoft.py:Agisoft.from_xml", "src/glimpse/convert/opencv.py:OpenCV.from_xml"]}
{"id": "C108", "title": "calibrations read from Camera Calibration Toolbox reports", "statement": "Matlab.from_report gives nx, ny, fc, cc, kc and alpha_c (with sigmas the errors divided by 3) of a report whose statements are one per line, in any order and among any other lines and comments; a report without one of them fails. Findings: the value of another variable whose name ends in the name (est_fc) or of a commented statement (%fc) is taken if it comes first; of two statements on a line only one can be read.", "quantifier": "all reports: any number of lines, any order, any spacing, any other text", "why_tests_cant": "all texts; the reader is a regular expression search over the whole text", "anchors": ["src/glimpse/convert/matlab.py:Matlab.from_report"]}
{"id": "C109", "title": "calibrations read from PhotoModeler reports", "statement": "PhotoModeler.from_report gives for each parameter the value (with sigmas the deviation) of the section whose heading contains its label, and 0 for parameters without section or deviation; the order of the sections and the lines before and after do not matter. Findings: the value of a heading such as K10 is taken for K1; a capital exponent is cut off.", "quantifier": "all reports: any sections in any order, any other lines, any units and spacing", "why_tests_cant": "all texts; the reader is a regular expression search over the whole text", "anchors": ["src/glimpse/convert/photomodeler.py:PhotoModeler.from_report"]}
{"id": "C110", "title": "resizing rasters and grids; value limits", "statement": "Raster.resize gives an array whose size is the size times the scale rounded to the nearest integer (halves to even), keeps the limits and the type, and leaves a raster that works as any other; each value is interpolated linearly between the four old cells around it, so it is within the range of the old values, the corners keep their values, scale 1 changes nothing, and a value is NaN exactly if one of the four cells is. Raster.zlim and box3d give the lowest and highest value without NaN. Findings: relative to the limits the values are displaced, up to half an old cell or more at the borders; NaN spreads up and left even with scale 1; Grid.resize rounds halves up, so a raster and its grid resized alike can differ in size.", "quantifier": "all rasters reached by any history of operations, all scales, all values with any NaN cells", "why_tests_cant": "all sizes, scales and values; interpolation is over the reals", "anchors": ["src/glimpse/raster.py:Raster.resize", "src/glimpse/raster.py:Grid.resize", "src/glimpse/raster.py:Raster.zlim", "src/glimpse/raster.py:Raster.box3d"]}
{"id": "C111", "title": "grids of points in boxes and images", "statement": "The points of Camera.grid (and of helpers.box_to_grid, in any number of dimensions) are exactly the points of the image (the box) that differ from the snap point by whole steps along each axis, each once; by default they are the centers of all pixels, row by row. The modes vectors, grids and points describe the same grid and other modes are refused. helpers.box_to_polygon is a closed ring of four corners that runs along the border of the box and nowhere else.", "quantifier": "all boxes of any dimension, all image sizes, steps and snap points", "why_tests_cant": "all real boxes and steps", "anchors": ["src/glimpse/camera.py:Camera.grid", "src/glimpse/helpers.py:box_to_grid", "src/glimpse/helpers.py:grid_to_points", "src/glimpse/helpers.py:box_to_polygon"]}
{"id": "C112", "title": "world lines as control: predicted points", "statement": "The points that Lines.predicted chooses from are projections of points of the world lines (unless elevations are corrected). With a camera without distortion they are all in the frame if any vertex is, and otherwise they are the projected vertices. Between neighbouring vertices in the frame whose images are more than 1/(2 density) pixels apart, every point of the line has a candidate within 1.5/density pixels, so an observed point is matched at most 1.5/density pixels further away than the line. Projection fails only for density 0 and lines without vertices. Findings: a line that crosses the image without a vertex in it is ignored when another line has one; a line shorter than 1/(2 density) pixels gives no point, and alone makes the prediction fail.", "quantifier": "all cameras, all numbers of lines and vertices, partly behind the camera or out of the frame, all densities", "why_tests_cant": "all lines and cameras; splitting, clipping and interpolation over the reals", "anchors": ["src/glimpse/optimize.py:Lines._xyzs_to_uvs", "src/glimpse/optimize.py:Lines.predicted"]}
{"id": "C113", "title": "tiles of observers and cached images", "statement": "After any history of extracting tiles, reading, caching and clearing images, switching caching, making sub-observers (which share images), resizing cameras, tracking, and shifting tiles that are not views of a cached image: Observer.extract_tile(box, img), with caching or at the size of what is cached (else of the file), returns the part in the box of the image at the camera's size, and arrays got before keep their contents. cache_images(index) and clear_images(index) act on exactly the images of the index, or raise IndexError and do nothing. shift_tile raises ValueError exactly for shifts over half a pixel or tiles too small for the spline; otherwise it samples the spline of each band at the shifted pixel centers, a shift of zero changes nothing, and planes are moved exactly (held at the outermost centers). Finding: shift_tile writes into its argument, so shifting a tile extracted with caching changes the image: tiles extracted later show the shifted pixels where they overlap, until the image is cleared.", "quantifier": "all finite histories of these operations on any number of observers and images, all boxes, shifts, splines and resampling methods", "why_tests_cant": "cache state, shared images and aliased arrays over all histories", "anchors": ["src/glimpse/track/observer.py:Observer.extract_tile", "src/glimpse/track/observer.py:Observer.shift_tile", "src/glimpse/track/observer.py:Observer.cache_images", "src/glimpse/track/observer.py:Observer.clear_images", "src/glimpse/image.py:Image.read"]}
{"id": "C114", "title": "Iterative undistortion converges", "statement": "For cameras whose distortion is not only k1, uv_to_xyz and the other inverse projections remove distortion by twenty passes of an iteration. Let d be how far the distortion moves a camera coordinate u at radius r, rho >= r + d, and q = (A r + 6 rho (|p1|+|p2|)) / m, where the radial factor is at least m and changes by at most A per unit of radius within radius rho (for k1, k2, k3 alone: m = 1 - |k1|rho^2 - |k2|rho^4 - |k3|rho^6, A = 2|k1|rho + 4|k2|rho^3 + 6|k3|rho^5). If q <= 1, n passes from the distorted coordinate end within q^n d of u. So a world point computed from the projection of a point at its depth is within depth * q^20 d of it, and projects back within max(fx, fy) (1 + |k1|rho^2 + |k2|rho^4 + |k3|rho^6) (q^20 + q^21) d of where the point is seen.", "quantifier": "all cameras, camera coordinates, world points, depths and numbers of passes", "why_tests_cant": "convergence rate over all coefficients and points", "anchors": ["src/glimpse/camera.py:Camera._undistort_oulu", "src/glimpse/camera.py:Camera._undistort", "src/glimpse/camera.py:Camera.uv_to_xyz", "src/glimpse/camera.py:Camera.xyz_to_uv"]}
{"id": "C115", "title": "Images are matched in the computer's time zone", "statement": "A tracker matches requested datetimes to images by POSIX timestamps, reading its naive datetimes in the time zone of the computer. In every zone and history of clock changes, match_datetimes gives for each datetime and observer the first image nearest by timestamp, or none when that is more than maxdt away. Where one offset applies to all datetimes, match_datetimes and parse_datetimes give what exact differences give; in general, with offsets in a range w, the match is within maxdt + w, at most 2w further than the nearest image, and without a match no image is within maxdt - w. A datetime near a single clock change is read by the old offset before the later local time of the change and by the new one after. Findings: where clocks go forward by h, every image at a skipped local time t and datetime t + h coincide, so asking for t + h with maxdt = 0 selects the image at t instead of the one at t + h; where clocks go back by h, an image just before and a requested time just after the repeated hour count as h further apart, and the match is lost.", "quantifier": "all time zones (offset functions), image and requested times, maxdt and clock changes", "why_tests_cant": "depends on the zone of the machine that runs the tests and on dates near clock changes", "anchors": ["src/glimpse/helpers.py:pairwise_distance_datetimes", "src/glimpse/track/tracker.py:Tracker.parse_datetimes", "src/glimpse/track/tracker.py:Tracker.match_datetimes"]}
{"id": "C116", "title": "Animations of observers show the tile around the point", "statement": "Observer.animate, for an observer that does not cache and images without a cached array: where a corner of the tile about the projected point is in the image, the frame shows the overlap of tile and image, to the nearest whole pixels and in its place, with the contents Image.read gives, and the point is marked where it is projected. Observer.track with an array of different frames shows for the j-th frame its image, the first j+1 positions projected into that image and the tile of exactly the requested size about the j-th one; it raises IndexError exactly when this tile is not in the image. Findings: with caching (the default) every frame of animate with a tile raises TypeError; a tile wider or taller than the image on both sides is white, and one that only touches it raises ValueError; the view reaches half a width (not height) above the point; track raises IndexError for frames given as a list, and shows the last position in surplus frames; plot_tile without a box exchanges width and height.", "quantifier": "all observers, cached or not, image and tile sizes, projected points, frames and positions", "why_tests_cant": "depends on the position of the tile relative to the image, on cache state and on frame order", "anchors": ["src/glimpse/track/observer.py:Observer.animate", "src/glimpse/track/observer.py:Observer.track", "src/glimpse/track/observer.py:Observer.plot_tile", "src/glimpse/track/observer.py:Observer.xyz_to_uv"]}
{"id": "C117", "title": "Camera.edges walks the frame clockwise in equal steps", "statement": "Camera.edges(step), for steps at most the image size: a steps along the top from (0, 0), b down the right side, a back along the bottom, b up the left side, where a and b are the numbers of whole steps that fit: 2(a+b) distinct points, all on the frame, the corners among them. Findings: the points are W/a and H/b apart, which is the requested step only if it divides the side and up to twice as long otherwise; a step longer than the image is wide leaves out the whole right side, one longer than it is high raises ValueError.", "quantifier": "all cameras with image sizes of at least one pixel, all positive steps", "why_tests_cant": "depends on the remainder of the image size by the step", "anchors": ["src/glimpse/camera.py:Camera.edges"]}
{"id": "C118", "title": "Animation of a track", "statement": "Tracks.animate shows, in ascending order and once each, the requested times (all by default) at which the track has a solution and the selected observer an image, except the last of them. The frame of a time shows the track up to it, a map window of the given size about its last point, an arrow from it by the velocity times a scale (the time units to the next shown time), the same for each particle with its weight, the name of the image of that time, and in the image plot the projections of all of this into this image with the tile that the observer reads about the last point. Without images of observers, or if there is nothing to show, it raises. (Refuted: scales are looked up by time instead of frame number, so an animation is drawn to its end only if the frames are the times 0, 1, 2, ... without a gap, and frames at times not below the number of frames raise IndexError; without a tracker, no frame can be drawn.)", "quantifier": "all tracks, times, requested frames, images, particles, sizes, cameras and stores of images", "why_tests_cant": "depends on which times have solutions and images, and on which frames are requested", "anchors": ["src/glimpse/track/tracks.py:Tracks.animate"]}
{"id": "C119", "title": "Detected keypoints and root-normalised descriptors", "statement": "detect_keypoints detects in the image and mask cast to bytes: images of values from 0 up to 256 are used as they are without decimals (finding: larger values wrap around, e.g. a mask of multiples of 256 selects nothing). Without root the result is the detector's. With root=True the keypoints are the same, no keypoints stay no keypoints, and each entry x of a descriptor of sum s becomes the square root of x/(s + 1e-7): all entries are at least 0 and below 1, the squared norm is 1 - 1e-7/(s + 1e-7) (0 for a descriptor of zeros, without dividing by zero), the squared distance of two is at most 2 and given by their sum of square roots of products (Hellinger kernel), and descriptors that differ only by a factor are at a distance of at most 1e-7 unless their sums are below 1.", "quantifier": "all detectors, images, masks and non-negative descriptors", "why_tests_cant": "must hold for every descriptor, including zeros and any scale", "anchors": ["src/glimpse/optimize.py:detect_keypoints"]}
{"id": "C120", "title": "Plots of reprojection errors show the selected points", "statement": "Points.plot, Lines.plot and Matches.plot draw an arrow from the observed to the predicted image point of every selected point, in the order of the index, and of every other point in order (none where the prediction is nan); a group that is empty or hidden is not drawn; options of the color argument come before those of the call, and those before the defaults; a new plot is limited to the image with y downward. Lines.plot also draws all image and projected lines unless hidden. All indices of numpy can be used but a single integer (finding: TypeError). For RotationMatchesXY and RotationMatchesXYZ plot cannot be called (finding: TypeError instead of NotImplementedError). Polynomial.plot shows both groups of points, with the options of the call first, and the values of the polynomial at all points, but only if both groups have points and are not hidden (finding: else TypeError, so always for the default index). Converter.plot draws an arrow from every uv to uv + residual for any scale, which is from xcam to cam for outgoing distortion models (finding: for incoming models the arrow starts at cam coordinates, so it is not from xcam to cam as documented unless it has no length). Cameras.plot draws the controls of the camera in order with the cameras set to params and then sets all cameras back (findings: not if a control cannot be drawn; an array index of two or more elements is refused also for a single control).", "quantifier": "all points, indices, options, cameras, polynomials, scales and controls", "why_tests_cant": "must hold for every selection and every combination of hidden and empty groups", "anchors": ["src/glimpse/optimize.py:Points.plot", "src/glimpse/optimize.py:Lines.plot", "src/glimpse/optimize.py:Matches.plot", "src/glimpse/optimize.py:Polynomial.plot", "src/glimpse/optimize.py:Cameras.plot", "src/glimpse/convert/converter.py:Converter.plot"]}
{"id": "C121", "title": "Plots of tracks show the selected tracks", "statement": "Tracks.plot_xy draws the positions of each selected track (also of a single one) as a line, their positions at the first time as starts, and their positions with the deviations in x and y as error bars, each only if asked for; plot_vxy an arrow along the velocity at each position; plot_v1d the velocity in one dimension over time, with a band of one deviation on either side (nan where either is nan). Deviations are the sigmas, else the roots of the variances. Options given come before the defaults, and the color given for means is also that of starts and sigmas, else black. It succeeds if there are deviations for sigmas and at least one time for starts. Findings: an empty dictionary of arguments is taken as False; a track that starts after the first time has no start in the plot, wherever it starts.", "quantifier": "all tracks, times, indices, dimensions and options", "why_tests_cant": "must hold for every selection, every pattern of nan and every combination of options", "anchors": ["src/glimpse/track/tracks.py:Tracks.plot_xy", "src/glimpse/track/tracks.py:Tracks.plot_vxy", "src/glimpse/track/tracks.py:Tracks.plot_v1d"]}
{"id": "C122", "title": "What Tracker.track returns", "statement": "With return_covariances, return_particles or reduce_particles, Tracker.track makes the same tracks as without: same datetimes, images, means and errors, and covariances with the squares of the standard deviations on their diagonal. With return_particles, at every time of every track either everything is missing or there are as many particles and weights as the motion model has, of which the mean and the spread are the weighted mean and standard deviations (or covariances). With reduce_particles, particles are not returned, and reduced has for each track the result of the function for the particles and weights that return_particles would have returned. Findings: tracks of different numbers of particles cannot be returned with their particles (ValueError after all have been made); an error of the reduction of one track, and an error of one of several tracks whose class cannot be made from a text alone, end the call and lose all tracks.", "quantifier": "all trackers, motion models that keep their number of particles, all resampling methods, datetimes, masks, reductions and errors", "why_tests_cant": "must hold at every time of every track, after any error, for any motion model and reduction", "anchors": ["src/glimpse/track/tracker.py:Tracker.track", "src/glimpse/track/tracker.py:Tracker.particle_covariance", "src/glimpse/track/tracks.py:Tracks"]}
{"id": "C123", "title": "Rasters and grids that share memory", "statement": "However many rasters and grids are made (from arrays, with the limits of another, as the grid, a copy or a part of another) and however they are changed: making and reading objects, and setting the limits, array or coordinate system (resample) of an object, never changes limits, coordinates or values of another. shift and assignment to cells change the limits (coordinates, values) only of objects that share them: a grid, or raster made with the limits of another, shares limits; a part k[i, j] coordinates and values; a raster resampled to a grid limits and coordinates with it; a copy nothing. A shift moves limits, coordinates and values of the object itself; limits, an array and a cell that are set are those set; after k.resample(g), k has the limits and coordinates of g and the values sampled. While their arrays are kept, k[i, j] has the coordinates and values of k at the selected positions, whichever is changed. Findings: shifting a raster moves the limits of its grid made before (and the reverse) but not the x and y that the other has read, which then are no longer those of its limits; after k.resample(g), shifting either of them moves the coordinates of the other; shifting a part of three columns or more moves these columns (only) in the x of the raster but not the limits of the raster.", "quantifier": "all sequences of operations on any number of rasters and grids, of any sizes, indices and shifts", "why_tests_cant": "must hold for every history of operations, and aliasing depends on all of it", "anchors": ["src/glimpse/raster.py:Grid.shift", "src/glimpse/raster.py:Raster.shift", "src/glimpse/raster.py:Raster.grid", "src/glimpse/raster.py:Raster.copy", "src/glimpse/raster.py:Raster.__getitem__", "src/glimpse/raster.py:Raster.resample"]}
{"id": "C124", "title": "Grids and rasters made from matrices of coordinates", "statement": "A grid or raster made from a matrix X with three or more columns (or Y with three or more rows) has x its first row, X the matrix and limits half a cell beyond the ends. Once other limits are assigned, x and every row of X are at all times the centers of the cells between the limits, whatever is shifted, assigned or read. Findings: before that, a shift moves the limits and the other rows of X once, but x and the first row of X, which are one array, twice; a matrix of two columns is taken for the limits, so x is not its row, and shifts move the limits twice.", "quantifier": "all matrices, and all sequences of shifts, assignments of limits and reads", "why_tests_cant": "must hold after any sequence of shifts and reads, and which arrays are the same is not seen in any single one", "anchors": ["src/glimpse/raster.py:Grid.shift", "src/glimpse/raster.py:Raster.shift", "src/glimpse/raster.py:Grid.x", "src/glimpse/raster.py:Grid.X", "src/glimpse/raster.py:Grid.xlim"]}
{"id": "C125", "title": "Files of objects: read back, and when a program is killed", "statement": "What write_pickle (with or without gzip) and write_json with a path have written is read back by read_pickle (same gz) and read_json; missing directories that contain the file are made and nothing else changes. They return unless a directory is in the place of the file or a file in the place of a directory. After any sequence of writes each file holds the object written to it last. If the program is killed at any point of a write, other files are as they were, and reading the file gives what it gave before, raises, or gives the object written, never another one. An object that cannot be written as JSON changes nothing. Findings: the file is emptied before it is written, so that its content is lost if the program is killed then, and, for pickles, if the object cannot be pickled; with binary=False and no gzip, write_pickle always raises TypeError and leaves an empty file.", "quantifier": "all file systems, objects, paths, options, histories of writes, and points at which the program is killed", "why_tests_cant": "A test cannot kill a program at each point of each write on each file system.", "anchors": ["src/glimpse/helpers.py:write_pickle", "src/glimpse/helpers.py:read_pickle", "src/glimpse/helpers.py:write_json", "src/glimpse/helpers.py:read_json"]}
{"id": "C126", "title": "Views depend on relative positions and directions only", "statement": "Moving a camera and points by the same vector changes nothing in what the camera reports: image points, normalized coordinates, depths and which points are in front are the same (with the elevation correction too), directions are seen at the same image points, and points found from image points with uv_to_xyz move along. Turning the camera clockwise about the vertical (the first angle of viewdir) and turning the points about the vertical line through the camera by the same angle changes nothing either. Adding to the third angle turns the normalized image by that angle, and the image points about the principal point when the focal lengths are equal and there is no tangential distortion; depths stay. Directions (y, p, r) and (y + 180, 180 - p, r + 180) give the same view. Without correction, multiplying the positions of camera and points by s > 0 keeps the image points and multiplies depths by s. Moving the principal point moves image points along, and multiplying the focal lengths by s multiplies them, measured from the principal point, by s, and uv_to_xyz of image points so changed is the same.", "quantifier": "all cameras, positions, directions, lenses, displacements, angles, scales, points and depths", "why_tests_cant": "tests project a few points with a few cameras; equivariance is about all pairs of cameras related by a motion", "anchors": ["src/glimpse/camera.py:Camera.xyz_to_uv", "src/glimpse/camera.py:Camera.uv_to_xyz", "src/glimpse/camera.py:Camera._xyz_to_xy", "src/glimpse/camera.py:Camera._xy_to_xyz", "src/glimpse/camera.py:Camera.R", "src/glimpse/camera.py:Camera.infront"]}
{"id": "C127", "title": "Undistortion by table lookup", "statement": "Normalized image points undistorted with method = 'lookup' (any density, any Delaunay triangulation chosen by griddata): where the lens draws a point of the table, that point is found, exactly, or another point of the table that is drawn to the same place; what is found always lies within the range of the table; without distortion points of the image are found as they are, and points outside of it get no value; with a lens that draws no point towards the principal point every point of the image gets a value, if there are at least two table points along each axis. Finding: with a lens that draws every point of the image towards the principal point (barrel distortion), no point on the border of the image gets a value (nan), for any density, since the table only reaches to what the lens makes of the image itself.", "quantifier": "all cameras with positive focal lengths and the principal point inside of the image, all distortion coefficients, densities, image points and triangulations", "why_tests_cant": "tests look at a few points of one lens; what has no value depends on the lens and the place", "anchors": ["src/glimpse/camera.py:Camera._undistort_lookup", "src/glimpse/camera.py:Camera._undistort"]}
