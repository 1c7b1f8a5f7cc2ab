{
 "claims": [
  {
   "property": "C01",
   "status": "proved",
   "theorems": [
    "bresenham_line_path"
   ],
   "note": "Full statement; integers unbounded."
  },
  {
   "property": "C02",
   "status": "proved",
   "theorems": [
    "bresenham_line_symmetric"
   ],
   "note": "Full statement."
  },
  {
   "property": "C03",
   "status": "proved",
   "theorems": [
    "boolean_split_lossless_maximal"
   ],
   "note": "Full statement for 1-d splits along axis 0; the runs are existentially given, unique by maximality."
  },
  {
   "property": "C04",
   "status": "proved",
   "theorems": [
    "format_list_contract",
    "format_list_none",
    "format_list_argument_unchanged_refuted"
   ],
   "note": "Length contract proved without dtype conversion. Finding (refuted): a list argument that must be extended is itself modified in place."
  },
  {
   "property": "C05",
   "status": "proved",
   "theorems": [
    "sorted_nearest_is_nearest",
    "sorted_nearest_singleton_refuted"
   ],
   "note": "Proved for >= 2 elements as stated; a one-element x raises IndexError for some y (finding)."
  },
  {
   "property": "C06",
   "status": "proved",
   "theorems": [
    "intersect_boxes_greatest",
    "intersect_boxes_odd_raises"
   ],
   "note": "nan bounds are no constraint (nanmax/nanmin)."
  },
  {
   "property": "C07",
   "status": "proved",
   "theorems": [
    "bounding_box_tightest",
    "bounding_box_in_box"
   ],
   "note": ""
  },
  {
   "property": "C08",
   "status": "proved",
   "theorems": [
    "box_to_grid_exact"
   ],
   "note": "mode='vectors'; meshgrid modes are numpy reshapes and not modelled. Exact reals."
  },
  {
   "property": "C09",
   "status": "proved",
   "theorems": [
    "ray_box_slab",
    "ray_box_lower_face",
    "ray_box_upper_face",
    "ray_box_flat_face",
    "ray_box_entry_refuted",
    "ray_box_exit_refuted",
    "ray_box_face_miss_refuted"
   ],
   "note": "Exact reals with inf and nan; signed zero not modelled (a direction component -0.0 behaves as 0.0 here)."
  },
  {
   "property": "C10",
   "status": "proved",
   "theorems": [
    "clip_polyline_box_exact",
    "clip_polyline_box_interior",
    "clip_polyline_box_refuted"
   ],
   "note": "Exact reals."
  },
  {
   "property": "C11",
   "status": "proved",
   "theorems": [
    "datetime_range_complete"
   ],
   "note": ""
  },
  {
   "property": "C12",
   "status": "proved",
   "theorems": [
    "select_datetimes_bounds",
    "select_datetimes_snapped",
    "select_datetimes_unbounded_targets",
    "select_datetimes_single",
    "select_datetimes_single_no_start",
    "select_datetimes_singleton_refuted"
   ],
   "note": "Datetimes as exact microseconds."
  },
  {
   "property": "C13",
   "status": "proved",
   "theorems": [
    "rasterize_points_means",
    "rasterize_points_out_of_range",
    "rasterize_points_in_place"
   ],
   "note": "values of shape (n,)."
  },
  {
   "property": "C14",
   "status": "proved",
   "theorems": [
    "compute_cdf_laws",
    "match_cdf_laws"
   ],
   "note": ""
  },
  {
   "property": "C15",
   "status": "proved",
   "theorems": [
    "camera_set_changes_only_its_component",
    "camera_set_reads_back",
    "camera_reset_restores",
    "camera_copy_state",
    "camera_objects_independent"
   ],
   "note": "Objects are modelled on a heap of parameter arrays, so that aliasing between copies would be visible."
  },
  {
   "property": "C16",
   "status": "proved",
   "theorems": [
    "camera_constructor",
    "camera_constructor_millimetres"
   ],
   "note": "Finding recorded in DESIGN.md: the constructor repeats a scalar cmm, the cmm setter pads it with 0."
  },
  {
   "property": "C17",
   "status": "proved",
   "theorems": [
    "camera_rotation_proper",
    "camera_rotation_periodic",
    "camera_rotation_is_yaw_pitch_roll",
    "camera_optical_axis"
   ],
   "note": "Exact reals."
  },
  {
   "property": "C18",
   "status": "proved",
   "theorems": [
    "camera_rprime_is_derivative"
   ],
   "note": ""
  },
  {
   "property": "C19",
   "status": "proved",
   "theorems": [
    "camera_unproject_project",
    "camera_project_unproject",
    "camera_unproject_project_k1",
    "camera_project_unproject_k1"
   ],
   "note": "Also proved with a k1 distortion (away from the axis, see C23)."
  },
  {
   "property": "C20",
   "status": "proved",
   "theorems": [
    "camera_depth_exact",
    "camera_depth_level",
    "camera_behind_is_nan",
    "camera_nan_iff_depth",
    "camera_infront_correction_refuted"
   ],
   "note": "Exact reals."
  },
  {
   "property": "C21",
   "status": "proved",
   "theorems": [
    "camera_ray_invariance",
    "camera_direction_scale"
   ],
   "note": ""
  },
  {
   "property": "C22",
   "status": "proved",
   "theorems": [
    "camera_resize_general",
    "camera_resize_integral",
    "camera_resize_factor_size",
    "camera_resize_target_size",
    "camera_resize_sequence",
    "camera_resize_one_restores",
    "camera_resize_force_refuted",
    "camera_resize_target_size_refuted"
   ],
   "note": "The candidate of scipy's differential evolution is a parameter. Cameras with a zero image size are outside the model."
  },
  {
   "property": "C23",
   "status": "proved",
   "theorems": [
    "camera_k1_undistort_off_axis",
    "camera_k1_distort_undistort",
    "camera_k1_undistort_refuted",
    "camera_oulu_fixed_point_exact"
   ],
   "note": "Exact reals. How fast the iteration converges is C114, regula falsi is C91; the lookup method is not modelled."
  },
  {
   "property": "C24",
   "status": "proved",
   "theorems": [
    "camera_rasterize_inside",
    "camera_rasterize_raises",
    "camera_rasterize_refuted"
   ],
   "note": ""
  },
  {
   "property": "C25",
   "status": "proved",
   "theorems": [
    "camera_unproject_depths_all",
    "camera_unproject_depths_refuted"
   ],
   "note": ""
  },
  {
   "property": "C55",
   "status": "proved",
   "theorems": [
    "camera_viewbox_contains_frustum",
    "camera_viewbox_exact"
   ],
   "note": "Exact reals; camera_viewbox_exact also shows that no smaller box contains the view, for cameras without elevation correction."
  },
  {
   "property": "C56",
   "status": "proved",
   "theorems": [
    "camera_spherical_inverse",
    "camera_spherical_round_trip"
   ],
   "note": ""
  },
  {
   "property": "C26",
   "status": "proved",
   "theorems": [
    "grid_rowcol_xy_inverse",
    "grid_rowcol_snap_round_trip",
    "grid_rowcol_is_center",
    "grid_snapped_cell_contains_point",
    "grid_index_bijection",
    "grid_coordinates_are_centers",
    "grid_inbounds_uv_xy"
   ],
   "note": "Exact reals; both orientations of each axis."
  },
  {
   "property": "C27",
   "status": "proved",
   "theorems": [
    "grid_snap_centers_nearest",
    "grid_snap_centers_lattice",
    "grid_snap_edges_nearest",
    "grid_snap_both_nearest",
    "grid_snap_stays_inbounds",
    "grid_snap_needs_a_target"
   ],
   "note": ""
  },
  {
   "property": "C28",
   "status": "proved",
   "theorems": [
    "grid_crop_extent",
    "raster_crop",
    "raster_crop_values"
   ],
   "note": "In-memory two-dimensional rasters."
  },
  {
   "property": "C29",
   "status": "proved",
   "theorems": [
    "grid_tiles_partition",
    "grid_tiles_any_overlap",
    "grid_tiles_overlap_refuted"
   ],
   "note": ""
  },
  {
   "property": "C30",
   "status": "proved",
   "theorems": [
    "grid_caches",
    "grid_caches_size_first",
    "grid_caches_refuted",
    "grid_size_stale_refuted",
    "raster_caches_unshifted",
    "raster_caches_refuted",
    "raster_sample_history_independent",
    "raster_limits_sampled",
    "raster_sample_stale_refuted"
   ],
   "note": "Buffers are modelled as shared mutable heaps, as in numpy."
  },
  {
   "property": "C31",
   "status": "proved",
   "theorems": [
    "raster_shift_unsampled",
    "raster_shift_sampled",
    "raster_shift_refuted",
    "raster_shift_y_after_sample_refuted"
   ],
   "note": "Orders 0 and 1."
  },
  {
   "property": "C32",
   "status": "proved",
   "theorems": [
    "raster_data_extent",
    "raster_crop_to_data"
   ],
   "note": ""
  },
  {
   "property": "C57",
   "status": "proved",
   "theorems": [
    "raster_sample_bounds",
    "raster_sample_nearest",
    "raster_sample_linear",
    "raster_sample_exact",
    "raster_sample_planar",
    "raster_sample_within_values"
   ],
   "note": "scipy 1.4.1 RegularGridInterpolator and interp1d are modelled from their source; one point at a time (grid=False)."
  },
  {
   "property": "C33",
   "status": "proved",
   "theorems": [
    "interpolant_nearest",
    "interpolant_nearest_extrapolate",
    "interpolant_between",
    "interpolant_at_node_refuted",
    "interpolant_extrapolate",
    "interpolant_sigma"
   ],
   "note": "Exact reals; rasters on a common grid of square cells. interpolant_at_node_refuted is the universal statement of what happens at a node."
  },
  {
   "property": "C58",
   "status": "proved",
   "theorems": [
    "interpolant_cell_size",
    "interpolant_cell_size_refuted"
   ],
   "note": "Sizes only; the resampling itself is Raster.resample (C32)."
  },
  {
   "property": "C34",
   "status": "proved",
   "theorems": [
    "viewshed_total",
    "viewshed_first_ring",
    "viewshed_above",
    "viewshed_below",
    "viewshed_monotone",
    "viewshed_plain_seen",
    "viewshed_plain_hidden",
    "viewshed_origin_refuted",
    "viewshed_colocated"
   ],
   "note": "Raster.viewshed over exact reals; viewshed_monotone assumes no missing elevations."
  },
  {
   "property": "C35",
   "status": "proved",
   "theorems": [
    "resample_systematic",
    "resample_stratified",
    "resample_choice",
    "resample_systematic_zero_draw_refuted"
   ],
   "note": "Draws strictly between 0 and 1, as the statement allows; at the boundary draw 0 a first particle of weight zero is copied (resample_systematic_zero_draw_refuted). numpy's searchsorted is modelled as the binary search it performs."
  },
  {
   "property": "C36",
   "status": "proved",
   "theorems": [
    "resample_residual",
    "resample_residual_single",
    "resample_residual_counts",
    "resample_residual_refuted"
   ],
   "note": "Exact reals: when exactly one whole copy is due in total the code divides by a sum that is 0 up to rounding."
  },
  {
   "property": "C37",
   "status": "proved",
   "theorems": [
    "update_weights_positive",
    "update_weights_unchanged"
   ],
   "note": "For any nonnegative exponential function, so also when it underflows to 0."
  },
  {
   "property": "C38",
   "status": "proved",
   "theorems": [
    "particle_mean_bounds",
    "particle_mean_affine",
    "particle_mean_scale",
    "particle_covariance_psd"
   ],
   "note": ""
  },
  {
   "property": "C59",
   "status": "proved",
   "theorems": [
    "resample_double_weight_refuted"
   ],
   "note": "One universal theorem: both the reported mean and the mean without weights."
  },
  {
   "property": "C39",
   "status": "proved",
   "theorems": [
    "parse_datetimes_spec",
    "tracker_datetimes_spec"
   ],
   "note": "Exact microseconds; timestamps in the time zone of the computer are C115, their float rounding is not modelled."
  },
  {
   "property": "C40",
   "status": "proved",
   "theorems": [
    "match_datetimes_nearest"
   ],
   "note": ""
  },
  {
   "property": "C41",
   "status": "proved",
   "theorems": [
    "track_window",
    "track_unobserved",
    "track_unobserved_refuted",
    "track_filter",
    "track_errors_contained",
    "track_single_raises",
    "track_results"
   ],
   "note": "Errors raised by reduce_particles are outside the model."
  },
  {
   "property": "C42",
   "status": "proved",
   "theorems": [
    "track_templates_in_order",
    "track_templates_all_tracks"
   ],
   "note": ""
  },
  {
   "property": "C43",
   "status": "proved",
   "theorems": [
    "observer_construction",
    "observer_index_nearest",
    "observer_index_self"
   ],
   "note": "Lookup by datetime (lookup of an image object is list.index)."
  },
  {
   "property": "C60",
   "status": "proved",
   "theorems": [
    "observer_subset_spec",
    "observer_split_breaks",
    "observer_split_int",
    "observer_split_int_refuted"
   ],
   "note": "Datetimes as exact microseconds."
  },
  {
   "property": "C61",
   "status": "proved",
   "theorems": [
    "track_idle_observer",
    "track_idle_observer_fails",
    "track_idle_call",
    "track_idle_default_refuted"
   ],
   "note": "That making a template without an image raises (images[None] is a TypeError) is a hypothesis on the observer; observers are added last."
  },
  {
   "property": "C44",
   "status": "proved",
   "theorems": [
    "motion_constant_velocity",
    "cartesian_motion_exact",
    "cartesian_motion_composes",
    "cartesian_motion_unit_free",
    "polar_acceleration",
    "cylindrical_motion_moving",
    "cylindrical_motion_exact",
    "cylindrical_motion_isotropic",
    "cylindrical_motion_at_rest_refuted",
    "cylindrical_motion_turning_refuted",
    "tangent_motion_follows_surface",
    "tangent_cylindrical_motion_follows_surface",
    "tangent_height_above_surface",
    "tangent_motion_reverses",
    "tangent_motion_outside",
    "surface_defined"
   ],
   "note": "Exact reals; time in whole microseconds."
  },
  {
   "property": "C45",
   "status": "proved",
   "theorems": [
    "tracks_endpoints",
    "tracks_success",
    "tracks_components",
    "tracks_sigma_sources_agree"
   ],
   "note": "Floats as exact reals; nan is None."
  },
  {
   "property": "C62",
   "status": "proved",
   "theorems": [
    "tile_box_contract",
    "search_box_contract",
    "search_box_tight",
    "template_likelihoods_total",
    "template_likelihood_nodes",
    "template_likelihood_aligned",
    "template_exact_match",
    "template_sampling_outside_nodes_refuted"
   ],
   "note": "The spline is any function of nodes and values; only template_likelihood_aligned assumes that it interpolates (scipy RectBivariateSpline is not modelled)."
  },
  {
   "property": "C63",
   "status": "proved",
   "theorems": [
    "cartesian_initialize",
    "cylindrical_initialize",
    "tangent_initialize",
    "motion_log_likelihood",
    "motion_default_dem_sigma_refuted",
    "motion_scalar_dem_refuted"
   ],
   "note": "Random draws are inputs."
  },
  {
   "property": "C64",
   "status": "proved",
   "theorems": [
    "camera_projection_formula"
   ],
   "note": "Floats as exact reals."
  },
  {
   "property": "C46",
   "status": "proved",
   "theorems": [
    "image_read_history",
    "image_read_uncached",
    "image_read_uncached_resized",
    "image_read_uncached_refuted",
    "image_read_shared_refuted"
   ],
   "note": "GDAL resampling is a parameter that returns the requested size and is the identity at native size."
  },
  {
   "property": "C47",
   "status": "proved",
   "theorems": [
    "image_complete_arguments",
    "image_metadata_arguments",
    "image_camera_argument",
    "image_supplemented_arguments",
    "image_f_argument_refuted",
    "image_missing_size_refuted",
    "image_bad_metadata_refuted"
   ],
   "note": "Non-numeric Exif sizes and invalid byte strings are outside the model."
  },
  {
   "property": "C51",
   "status": "proved",
   "theorems": [
    "cameras_set",
    "cameras_set_same_iff",
    "cameras_set_injective",
    "cameras_set_long",
    "cameras_set_length",
    "cameras_set_short_refuted",
    "cameras_initial_round_trip",
    "cameras_predicted_restores",
    "cameras_predicted_error",
    "cameras_reset",
    "cameras_ungrouped_refuted",
    "cameras_overlap_refuted",
    "cameras_predicted_error_refuted"
   ],
   "note": "lmfit/scipy are not modelled."
  },
  {
   "property": "C65",
   "status": "proved",
   "theorems": [
    "params_selection",
    "params_selection_exact",
    "params_selection_refuted"
   ],
   "note": "Keys that are not camera attributes are ignored by the code and not modelled."
  },
  {
   "property": "C66",
   "status": "proved",
   "theorems": [
    "sparsity_sound"
   ],
   "note": "Controls are any objects whose predictions depend only on their cameras."
  },
  {
   "property": "C67",
   "status": "proved",
   "theorems": [
    "weights_normalized",
    "residuals_weighted"
   ],
   "note": "Floats as exact reals."
  },
  {
   "property": "C48",
   "status": "proved",
   "theorems": [
    "agisoft_from_exact_iff",
    "matlab_from_exact_iff",
    "opencv_from_exact",
    "photomodeler_from_exact",
    "photomodeler_from_exact_iff",
    "agisoft_from_no_optimization",
    "matlab_from_no_optimization",
    "agisoft_from_optimizes",
    "matlab_from_optimizes",
    "photomodeler_from_optimizes",
    "agisoft_from_selected",
    "matlab_from_selected",
    "agisoft_to_exact_iff",
    "matlab_to_exact_iff",
    "opencv_to_exact_iff",
    "photomodeler_to_exact_iff",
    "agisoft_to_camera",
    "matlab_to_camera",
    "opencv_to_camera",
    "photomodeler_to_camera",
    "convert_round_trip",
    "convert_back_round_trip",
    "opencv_arrays",
    "opencv_coeffs",
    "matlab_default_center",
    "converter_sizes",
    "convert_grid",
    "convert_grid_inside",
    "convert_grid_narrow",
    "convert_index_exact",
    "convert_index_refuted",
    "convert_grid_refuted",
    "photomodeler_cancel_refuted"
   ],
   "note": "scipy.optimize.least_squares is a parameter."
  },
  {
   "property": "C52",
   "status": "proved",
   "theorems": [
    "ransac_best",
    "ransac_inliers_refuted",
    "ransac_samples_distinct",
    "ransac_samples_zero",
    "ransac_samples_refuted"
   ],
   "note": "Model exceptions and float rounding (lgamma, exp) are not modelled."
  },
  {
   "property": "C53",
   "status": "proved",
   "theorems": [
    "matcher_order",
    "matching_pairs",
    "matching_pairs_total",
    "build_matches_result",
    "matching_imgs_refuted",
    "matching_empty_seq_refuted",
    "build_matches_shape_refuted",
    "build_matches_none_refuted"
   ],
   "note": "Findings: imgs only tests the later image (documented: at least one); the matrix is never (n, n); no pair at all raises after clearing keypoints; an empty seq raises. Keypoint detection and descriptor matching are parameters."
  },
  {
   "property": "C54",
   "status": "proved",
   "theorems": [
    "drop_images_aligned",
    "drop_images_history",
    "drop_images_others_refuted",
    "drop_images_keypoints_refuted"
   ],
   "note": "Findings: images without matches are dropped too, and keypoints stay misaligned with images."
  },
  {
   "property": "C68",
   "status": "proved",
   "theorems": [
    "build_keypoints_result",
    "build_keypoints_resume",
    "build_keypoints_overwrite",
    "build_keypoints_overwrite_refuted",
    "build_keypoints_partial_file_refuted",
    "build_keypoints_failed"
   ],
   "note": "Sequential runs (parallel=False). Findings: overwrite and files cut short by a crash."
  },
  {
   "property": "C69",
   "status": "proved",
   "theorems": [
    "build_matches_result",
    "build_matches_clear",
    "build_matches_resume",
    "build_matches_partial_file_refuted",
    "build_matches_clear_filter_refuted",
    "build_matches_names_refuted"
   ],
   "note": "Sequential runs; keypoint matching is a deterministic parameter; cameras of matches not modelled. Findings as listed."
  },
  {
   "property": "C70",
   "status": "proved",
   "theorems": [
    "match_keypoints_spec",
    "match_keypoints_few",
    "match_keypoints_none_left_refuted",
    "match_keypoints_same_descriptor_refuted",
    "match_keypoints_zero_refuted"
   ],
   "note": "knnMatch is a parameter that returns as many neighbours as asked for (mask not modelled). Distances are exact reals."
  },
  {
   "property": "C71",
   "status": "proved",
   "theorems": [
    "matches_per_image_spec",
    "images_per_image_spec",
    "match_breaks_spec",
    "match_breaks_min_single",
    "match_breaks_min_refuted"
   ],
   "note": ""
  },
  {
   "property": "C49",
   "status": "proved",
   "theorems": [
    "polyline_round_trip",
    "polygon_round_trip_iff",
    "polygon_open_closed",
    "line_round_trip_iff",
    "circle_round_trip_iff",
    "path_round_trip",
    "integer_path_round_trip",
    "path_short_refuted",
    "rect_round_trip",
    "viewBox_round_trip",
    "path_vertices",
    "path_vertices_first",
    "path_two_subpaths_refuted",
    "path_second_subpath_refuted",
    "path_leading_space_refuted",
    "path_adjacent_refuted"
   ],
   "note": "For any numbers whose printed form is a decimal number that reads as the same number (proved for integers; for floats this is repr round-tripping). rect and viewBox for integers."
  },
  {
   "property": "C50",
   "status": "proved",
   "theorems": [
    "transform_in_written_order",
    "transform_standard_when_commuting",
    "transform_standard_translations",
    "transform_unsupported",
    "transform_wrong_count",
    "transform_order_refuted",
    "transform_space_refuted"
   ],
   "note": "Exact real arithmetic. Names of other Points attributes (closed, bbox, ...) used as functions are not modelled."
  },
  {
   "property": "C72",
   "status": "proved",
   "theorems": [
    "read_elements",
    "image_frame",
    "read_no_image",
    "read_element_fails",
    "group_transform_order_refuted"
   ],
   "note": "XML parsing and namespaces are not modelled (element trees are the input); exact reals."
  },
  {
   "property": "C73",
   "status": "proved",
   "theorems": [
    "points_resize_ratio",
    "resized_projection",
    "points_resize_residuals",
    "points_predicted_moved",
    "lines_merged",
    "lines_predicted_nearest",
    "lines_predicted_none",
    "matches_resize_ratio",
    "rotation_resize_refuted",
    "rotation_no_imgszs"
   ],
   "note": "Exact real arithmetic; image sizes non-zero throughout. The projection of world lines (Lines._xyzs_to_uvs) is an input of lines_predicted_nearest; it is the subject of C112."
  },
  {
   "property": "C74",
   "status": "proved",
   "theorems": [
    "matches_true_points",
    "rotation_predicted",
    "rotation_predicted_refused",
    "rotation_xy_predicted",
    "rotation_rays",
    "rays_unit",
    "to_type_new",
    "rotation_xy_only_refuted"
   ],
   "note": "Exact real arithmetic; 'the lens can be inverted' is the hypothesis undistort(distort(xy)) = xy at the points (shown elsewhere for cameras without distortion or with k1 only)."
  },
  {
   "property": "C75",
   "status": "proved",
   "theorems": [
    "filter_keeps",
    "filter_fails",
    "filter_n_best",
    "new_imaged",
    "rotation_filter_refuted",
    "rotation_xy_filter_refuted"
   ],
   "note": "np.argsort is a parameter (any permutation sorting by falling weight). n_best is a natural number."
  },
  {
   "property": "C76",
   "status": "proved",
   "theorems": [
    "project_point",
    "project_size",
    "project_identity",
    "project_identity_int",
    "project_identity_lens",
    "project_range",
    "project_refused",
    "project_behind",
    "project_integers_refuted"
   ],
   "note": "Exact real arithmetic; scipy 1.4.1's RegularGridInterpolator is modelled; reading the image is modelled separately (C46). One band (bands are independent)."
  },
  {
   "property": "C77",
   "status": "proved",
   "theorems": [
    "exif_datetime",
    "exif_datetime_fraction",
    "exif_datetime_refused",
    "exif_datetime_no_date",
    "exif_numbers",
    "exif_imgsz",
    "exif_imgsz_missing",
    "exif_iso",
    "exif_iso_pair_refuted",
    "exif_sensorsz",
    "exif_thumbnail"
   ],
   "note": "piexif.load gives the tags; bytes.decode is the identity on ASCII; Python's strptime is modelled by its regular expression; float division exact."
  },
  {
   "property": "C78",
   "status": "proved",
   "theorems": [
    "dump_accepts",
    "dump_codes"
   ],
   "note": "piexif.dump itself and the code tables are parameters. That self.tags is not modified rests on copy.deepcopy and is not expressed."
  },
  {
   "property": "C79",
   "status": "proved",
   "theorems": [
    "circle_near",
    "circle_exact",
    "circle_total",
    "circle_connected_refuted"
   ],
   "note": "Integer radii (as passed by fill_circle)."
  },
  {
   "property": "C80",
   "status": "proved",
   "theorems": [
    "fill_circle_exact",
    "fill_circle_outside",
    "fill_circle_center",
    "fill_circle_small",
    "fill_circle_total",
    "fill_circle_inside_refuted"
   ],
   "note": "The cell of the center is an input (its computation is C25's); nan rows are shown not to occur."
  },
  {
   "property": "C81",
   "status": "proved",
   "theorems": [
    "line_points",
    "line_error",
    "line_beyond",
    "line_default",
    "line_count",
    "line_step",
    "line_required",
    "line_fill_refuted",
    "line_step_refuted"
   ],
   "note": "Real arithmetic; numpy.interp is the clamped piecewise-linear function."
  },
  {
   "property": "C82",
   "status": "proved",
   "theorems": [
    "normalize_laws",
    "tile_gain",
    "tile_monotone",
    "tile_recognised",
    "tile_plain"
   ],
   "note": "Real arithmetic; the median filter is a parameter."
  },
  {
   "property": "C83",
   "status": "proved",
   "theorems": [
    "gaussian_average",
    "gaussian_range",
    "gaussian_integer_refuted"
   ],
   "note": "scipy.ndimage's gaussian weights are a parameter."
  },
  {
   "property": "C84",
   "status": "proved",
   "theorems": [
    "maximum_greatest",
    "maximum_infinite_refuted",
    "crevasses_range"
   ],
   "note": "scipy.ndimage's windows and weights are parameters."
  },
  {
   "property": "C85",
   "status": "proved",
   "theorems": [
    "constructed_consistent",
    "constructor_accepts"
   ],
   "note": "Indices of groups are not negative."
  },
  {
   "property": "C86",
   "status": "proved",
   "theorems": [
    "default_bounds",
    "params_entries",
    "params_start_iff",
    "params_start_refuted"
   ],
   "note": "lmfit.Parameter is modelled from its documentation; nan camera parameters are not modelled."
  },
  {
   "property": "C87",
   "status": "proved",
   "theorems": [
    "camera_json_round_trip",
    "camera_json_attributes",
    "camera_json_construct",
    "camera_json_override",
    "camera_json_null_refuted",
    "camera_json_correction_refuted",
    "camera_correction_default"
   ],
   "note": "Text of JSON files is not modelled (json.dumps and json.load are inverse)."
  },
  {
   "property": "C88",
   "status": "proved",
   "theorems": [
    "getitem_slice",
    "raster_getitem",
    "raster_getitem_refused",
    "raster_getitem_int",
    "raster_getitem_pair_refuted",
    "raster_getitem_shift_refuted"
   ],
   "note": "Two-dimensional arrays."
  },
  {
   "property": "C89",
   "status": "proved",
   "theorems": [
    "project_dem_image",
    "project_dem_pixels",
    "project_dem_raises",
    "project_dem_tiles_refuted",
    "project_dem_depth_scaled_refuted"
   ],
   "note": "Rescaled tiles (scipy.ndimage.zoom, scale_limits other than (1, 1)) are modelled only for the depth without values, which raises; values are not nan."
  },
  {
   "property": "C90",
   "status": "proved",
   "theorems": [
    "reversible_iff",
    "reversible_false",
    "reversible_nonnegative",
    "reversible_corner_refuted"
   ],
   "note": "reversible_false assumes that the denominator of the radial distortion does not vanish on the axes."
  },
  {
   "property": "C91",
   "status": "proved",
   "theorems": [
    "regulafalsi_result",
    "regulafalsi_solution_kept",
    "regulafalsi_axis_refuted"
   ],
   "note": "Default tolerance 0; exact arithmetic."
  },
  {
   "property": "C92",
   "status": "proved",
   "theorems": [
    "horizon_points",
    "horizon_segments_lossless",
    "horizon_border_refuted",
    "horizon_outside_refuted"
   ],
   "note": "Exact reals: rounding at the border of the raster is not modelled."
  },
  {
   "property": "C93",
   "status": "proved",
   "theorems": [
    "raster_open_read",
    "raster_read_box_refused",
    "raster_read_box_first_refuted",
    "raster_read_finer_refuted",
    "raster_nodata_zero_refuted",
    "grid_read_refuted"
   ],
   "note": "GDAL resampling is a parameter that keeps windows read at their own size and gives the size asked for; exact comparison with the no-data value."
  },
  {
   "property": "C94",
   "status": "proved",
   "theorems": [
    "gradient_mean_value",
    "gradient_plane",
    "gradient_quadratic",
    "gradient_small",
    "hillshade_mirrored_refuted",
    "hillshade_south_face_refuted"
   ],
   "note": "numpy.gradient and matplotlib's LightSource.hillshade (vert_exag = 1) are modelled after their documentation; they are not in /repo."
  },
  {
   "property": "C95",
   "status": "proved",
   "theorems": [
    "orient_ray",
    "orient_objective",
    "orient_anchors",
    "orient_minimum",
    "orient_derivative",
    "orient_gradient_anchors",
    "orient_fit_restores",
    "orient_fit_returns",
    "orient_fit_interrupted_refuted",
    "orient_gradient_refuted"
   ],
   "note": "Each image has a camera object of its own; scipy.optimize.minimize is any strategy of evaluations."
  },
  {
   "property": "C96",
   "status": "proved",
   "theorems": [
    "fit_plain_restores",
    "fit_result",
    "fit_iterated_restores",
    "fit_iteration_size_refuted",
    "fit_iteration_groups_refuted",
    "fit_round_shared_refuted"
   ],
   "note": "index = slice(None), method = least_squares (defaults); lmfit.minimize is any strategy of evaluations, and refuses scales or sparsity of another size as scipy does."
  },
  {
   "property": "C97",
   "status": "proved",
   "theorems": [
    "grid_sample_returns",
    "grid_sample_points",
    "grid_sample_nan",
    "grid_sample_out",
    "resample_grid",
    "resample_own_grid",
    "grid_sample_extrapolate_refuted",
    "grid_sample_unsorted_refuted",
    "grid_sample_all_nan_refuted",
    "grid_sample_border_refuted",
    "grid_sample_huge_refuted",
    "grid_sample_row_refuted",
    "grid_sample_column_refuted"
   ],
   "note": "order=1; RectBivariateSpline of degree 1 is modelled as the piecewise bilinear interpolant extended to bbox, evaluated as FITPACK bispev does; exact arithmetic."
  },
  {
   "property": "C98",
   "status": "proved",
   "theorems": [
    "rasterize_means",
    "rasterize_length",
    "rasterize_nan_refuted",
    "rasterize_integer_refuted",
    "polygons_mask",
    "polygons_island_refuted"
   ],
   "note": "gdal.RasterizeLayer (default options) is modelled as the even-odd scanline rule at cell centers; centers exactly on a side or at the level of a vertex are excluded by hypothesis."
  },
  {
   "property": "C99",
   "status": "proved",
   "theorems": [
    "strip_path_spec",
    "strip_path_unique",
    "image_names",
    "image_names_dots_refuted",
    "file_extension"
   ],
   "note": "os.path.basename and splitext are modelled for POSIX paths."
  },
  {
   "property": "C100",
   "status": "proved",
   "theorems": [
    "driver_from_path",
    "write_refused",
    "write_file",
    "image_write_file",
    "write_crs_refuted",
    "write_open_round_trip",
    "write_nan_refuted"
   ],
   "note": "GDAL drivers are a registry of names, extensions and capabilities; what CreateCopy stores is a parameter; the file system maps paths to datasets."
  },
  {
   "property": "C101",
   "status": "proved",
   "theorems": [
    "grid_equality",
    "grid_copy_equal",
    "grid_copy_tuple_refuted",
    "raster_equality",
    "raster_symmetric",
    "raster_copy_equal",
    "raster_nan_refuted",
    "raster_broadcast_refuted",
    "raster_transitive_refuted",
    "raster_grid_spec"
   ],
   "note": "Values are reals or NaN; two dimensions."
  },
  {
   "property": "C102",
   "status": "proved",
   "theorems": [
    "write_content",
    "write_layout",
    "write_sibling_refuted",
    "annotations_round_trip",
    "read_errors",
    "svg_attributes",
    "braces_refuted"
   ],
   "note": "xml.etree is modelled for documents of elements, attributes and text: tostring with its escapes, a parser with namespaces; declarations, comments, CDATA, control characters in attributes and non-ASCII characters are not modelled."
  },
  {
   "property": "C103",
   "status": "proved",
   "theorems": [
    "flat_same",
    "flat_layout",
    "flat_negative",
    "flat_strings",
    "flat_strings_refuted",
    "flat_nested_refuted",
    "flat_indent_refuted"
   ],
   "note": "json.dumps is modelled with its default separators, numbers and constants by their texts, strings of printable ASCII characters."
  },
  {
   "property": "C104",
   "status": "proved",
   "theorems": [
    "scales_positive",
    "mean_radius",
    "mean_radius_any",
    "scale_center",
    "scale_imgsz",
    "scale_focal",
    "scale_tangential",
    "scale_radial_refuted",
    "scale_denominator_refuted",
    "scale_roll",
    "scale_yaw",
    "scale_pitch",
    "seen_points",
    "scale_position",
    "scale_position_refuted",
    "model_scales"
   ],
   "note": "Exact reals; the mean distance is stated with the Riemann integral of the standard library."
  },
  {
   "property": "C105",
   "status": "proved",
   "theorems": [
    "keypoints_parallel",
    "keypoints_parallel_result",
    "matches_parallel",
    "matches_parallel_files",
    "matches_parallel_resume",
    "matches_parallel_clear_refuted",
    "assign_arrived_order",
    "pool_each_once"
   ],
   "note": "The pool is modelled after the source of sharedmem, which is not in /repo; exceptions of matching tasks are excluded by the hypotheses."
  },
  {
   "property": "C106",
   "status": "proved",
   "theorems": [
    "track_parallel",
    "track_parallel_random_refuted",
    "track_threads_refuted"
   ],
   "note": "A track is one step of its worker: with processes workers share nothing that tracks change."
  },
  {
   "property": "C107",
   "status": "proved",
   "theorems": [
    "agisoft_xml",
    "agisoft_xml_errors",
    "opencv_xml",
    "opencv_xml_errors",
    "opencv_xml_exponent_refuted",
    "opencv_xml_round_trip"
   ],
   "note": "float(text) is a parameter; the XML parser is that of SvgDocModel."
  },
  {
   "property": "C108",
   "status": "proved",
   "theorems": [
    "matlab_report",
    "matlab_report_missing",
    "matlab_report_name_refuted",
    "matlab_report_line_refuted"
   ],
   "note": "float(text) is a parameter; regular expressions are matched by a backtracking matcher."
  },
  {
   "property": "C109",
   "status": "proved",
   "theorems": [
    "photomodeler_report",
    "photomodeler_heading_refuted"
   ],
   "note": "float(text) is a parameter; regular expressions are matched by a backtracking matcher."
  },
  {
   "property": "C110",
   "status": "proved",
   "theorems": [
    "resize_size",
    "resize_values",
    "resize_range",
    "resize_corners",
    "resize_same",
    "resize_plane_refuted",
    "resize_nan_refuted",
    "resize_grid_refuted",
    "raster_zlim",
    "resize_empty"
   ],
   "note": "scipy.ndimage.zoom (order 1) is modelled after its source; exact reals."
  },
  {
   "property": "C111",
   "status": "proved",
   "theorems": [
    "grid_points",
    "grid_modes",
    "camera_grid_points",
    "camera_grid_pixels",
    "box_polygon"
   ],
   "note": "Exact reals."
  },
  {
   "property": "C112",
   "status": "proved",
   "theorems": [
    "lines_on_lines",
    "lines_inframe",
    "lines_close",
    "lines_predict_close",
    "lines_project_total",
    "lines_crossing_refuted",
    "lines_short_refuted"
   ],
   "note": "Exact reals; frame and distance theorems are for cameras without distortion. numpy.argsort is a parameter that sorts."
  },
  {
   "property": "C113",
   "status": "proved",
   "theorems": [
    "observer_tiles",
    "observer_cache_images",
    "observer_index",
    "observer_shift_tile",
    "observer_shift_none",
    "observer_shift_plane",
    "observer_shift_cached_refuted"
   ],
   "note": "Memory with buffers and views; the spline and GDAL resampling are parameters (what is asked of them is in the statements; linear interpolation and nearest pixels are shown to qualify)."
  },
  {
   "property": "C114",
   "status": "proved",
   "theorems": [
    "oulu_converges",
    "undistort_converges",
    "unproject_error"
   ],
   "note": "Exact reals. The explicit bounds are for cameras with k4 = k5 = k6 = 0; oulu_converges covers the others with bounds given for their radial factor."
  },
  {
   "property": "C115",
   "status": "proved",
   "theorems": [
    "zone_stamp",
    "zone_match",
    "zone_constant",
    "zone_bound",
    "zone_gap_refuted",
    "zone_fold_refuted"
   ],
   "note": "Exact microseconds instead of float timestamps; datetime._mktime of the standard library for fold = 0 is modelled."
  },
  {
   "property": "C116",
   "status": "proved",
   "theorems": [
    "animate_shows",
    "animate_cached_refuted",
    "animate_white",
    "animate_view_refuted",
    "track_shows",
    "track_frames_refuted",
    "plot_tile_box_refuted"
   ],
   "note": "What is handed to matplotlib (tile, extent, points, limits); photographs only. read_floats models numpy refusing floats as slice bounds."
  },
  {
   "property": "C117",
   "status": "proved",
   "theorems": [
    "camera_edges",
    "camera_edges_distinct",
    "camera_edges_spacing",
    "camera_edges_long_refuted"
   ],
   "note": "Exact reals. camera_edges_spacing relates W/a to the step for the a of camera_edges."
  },
  {
   "property": "C118",
   "status": "proved",
   "theorems": [
    "tracks_animate_frames",
    "tracks_animate_nothing",
    "tracks_animate_frame",
    "tracks_animate_plain",
    "tracks_animate_gaps_refuted",
    "tracks_animate_index_refuted",
    "tracks_animate_tracker_refuted"
   ],
   "note": "Figures, colors and styles are not modelled. tracks_animate_plain shows success and exact scales without images; with images a drawn frame is tracks_animate_frame."
  },
  {
   "property": "C119",
   "status": "proved",
   "theorems": [
    "detect_result",
    "detect_bytes",
    "detect_bytes_refuted",
    "rooted_bounds",
    "rooted_distance",
    "rooted_scale"
   ],
   "note": "Exact reals; the OpenCV detector is a parameter."
  },
  {
   "property": "C120",
   "status": "proved",
   "theorems": [
    "points_plot_errors",
    "points_plot_index",
    "lines_plot_errors",
    "matches_plot_errors",
    "matches_plot_xy_refuted",
    "poly_plot_shows",
    "poly_plot_refuted",
    "converter_plot_arrows",
    "converter_plot_outgoing",
    "converter_plot_incoming_refuted",
    "cameras_plot_shows",
    "cameras_plot_error_refuted",
    "cameras_plot_array_refuted"
   ],
   "note": "What is handed to matplotlib (positions, vectors, options, limits). matches_plot_errors is for as many image as camera coordinates (matches_sizes), as new_matches makes from one of them."
  },
  {
   "property": "C121",
   "status": "proved",
   "theorems": [
    "tracks_plot_xy",
    "tracks_plot_xy_total",
    "tracks_plot_vxy",
    "tracks_plot_v1d",
    "tracks_plot_empty_refuted",
    "tracks_plot_start_refuted"
   ],
   "note": "What is handed to matplotlib (points, lengths of error bars, vectors, bands, options)."
  },
  {
   "property": "C122",
   "status": "proved",
   "theorems": [
    "track_output_same",
    "track_output_particles",
    "track_output_reduced",
    "track_output_sizes_refuted",
    "track_output_reduce_refuted",
    "track_output_rebuild_refuted"
   ],
   "note": "What Tracker.track returns with each of its options. Hypothesis: motion models keep their number of particles and likelihoods and draws are as many as asked for."
  },
  {
   "property": "C123",
   "status": "proved",
   "theorems": [
    "share_quiet",
    "share_apart",
    "share_made",
    "share_fresh",
    "share_kept",
    "share_resample",
    "share_shift_own",
    "share_shift_values",
    "share_shift_limits",
    "share_sub_view",
    "share_copy",
    "share_limits_own",
    "share_array_own",
    "share_cell_own",
    "share_resample_own",
    "share_resample_shift_refuted",
    "share_sub_shift_only",
    "share_grid_shift_refuted",
    "share_sub_shift_refuted"
   ],
   "note": "Float arrays in memory; the cached matrices X and Y and the interpolator are left out (C31). Which objects share is stated by share_made, share_fresh, share_kept and share_resample."
  },
  {
   "property": "C124",
   "status": "proved",
   "theorems": [
    "matrix_made",
    "matrix_limits",
    "matrix_shift_refuted",
    "matrix_two_refuted"
   ],
   "note": "One axis; arrays of floats."
  },
  {
   "property": "C126",
   "status": "proved",
   "theorems": [
    "view_moved",
    "view_turned",
    "view_turned_back",
    "view_flipped_back",
    "view_rolled",
    "view_flipped",
    "view_scaled",
    "view_recentered",
    "view_magnified"
   ],
   "note": "real arithmetic; cameras are changed through the setters of CameraModel"
  },
  {
   "property": "C127",
   "status": "proved",
   "theorems": [
    "lookup_known",
    "lookup_within",
    "lookup_plain",
    "lookup_spread",
    "lookup_barrel_refuted"
   ],
   "note": "real arithmetic; scipy.interpolate.griddata is a relation: any Delaunay triangle that holds the point, nan outside of the hull; its error for points on one line is not modelled"
  },
  {
   "property": "C125",
   "status": "proved",
   "theorems": [
    "pickle_read",
    "pickle_returns",
    "pickle_killed",
    "pickle_history",
    "pickle_lost_refuted",
    "pickle_text_refuted",
    "pickle_seen",
    "json_refused",
    "json_returns",
    "json_read",
    "json_killed",
    "json_lost_refuted"
   ],
   "note": "pickle, gzip and json are encodings with a premise: what is written is read, parts of it are not read as something else. Symbolic links, permissions and full disks are not modelled."
  }
 ]
}