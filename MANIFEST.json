{
 "claims": [
  {
   "property": "C01",
   "status": "proved",
   "theorems": [
    "maximal_points_correct",
    "maximal_points_65536_undefined"
   ],
   "note": "Exact characterisation for width, height 1..65535; at 65536 the uint16 modulus is zero and the behaviour is undefined."
  },
  {
   "property": "C02",
   "status": "proved",
   "theorems": [
    "annular_mask_membership",
    "annular_mask_default_center",
    "annular_mask_radius_overflow"
   ],
   "note": "Exact membership; radii whose square overflows int are undefined behaviour."
  },
  {
   "property": "C03",
   "status": "proved",
   "theorems": [
    "adjacent_annuli_add"
   ],
   "note": ""
  },
  {
   "property": "C04",
   "status": "proved",
   "theorems": [
    "stem_images_correct"
   ],
   "note": "Value and place of every pixel of every STEM image, no wrap."
  },
  {
   "property": "C05",
   "status": "proved",
   "theorems": [
    "stem_images_schedule_independent",
    "stem_images_terminates",
    "stem_pool_no_deadlock",
    "stem_pool_finite",
    "stem_images_duplicate_positions_refuted"
   ],
   "note": "Thread pool as transition system; duplicate positions shown to be schedule dependent."
  },
  {
   "property": "C06",
   "status": "proved",
   "theorems": [
    "sparse_stem_images_correct",
    "sparse_stem_order_independent",
    "sparse_equals_dense_refuted",
    "sparse_stem_event_out_of_frame"
   ],
   "note": ""
  },
  {
   "property": "C07",
   "status": "proved",
   "theorems": [
    "radial_sum_correct",
    "radial_sum_conserves",
    "radial_rings_partition",
    "radial_sum_rejects",
    "radial_sum_large_result_undefined",
    "binary64_ceil_sqrt",
    "binary64_square_sum_exact"
   ],
   "note": "Exact bin contents and conservation for every complete execution; binary64 square roots related to the integer model; undefined when the result exceeds 32-bit indexing."
  },
  {
   "property": "C08",
   "status": "proved",
   "theorems": [
    "radial_sum_schedule_independent",
    "radial_sum_any_workers",
    "radial_sum_terminates",
    "radial_pool_no_deadlock"
   ],
   "note": ""
  },
  {
   "property": "C09",
   "status": "proved",
   "theorems": [
    "histogram_counts",
    "histogram_total",
    "container_edges",
    "image_histogram",
    "histogram_lossless",
    "histogram_loses_only_maxima",
    "histogram_all_pixels_refuted",
    "histogram_edge_cases"
   ],
   "note": "Binary64 arithmetic modelled with Flocq; the unconditional 'every pixel counted' is refuted (pixels 0 and 1, 49 bins)."
  },
  {
   "property": "C10",
   "status": "proved",
   "theorems": [
    "average_correct",
    "average_of_nothing",
    "average_order_independent"
   ],
   "note": "Correctly rounded quotient of the exact sum; binary64 modelled."
  },
  {
   "property": "C11",
   "status": "proved",
   "theorems": [
    "maximum_pattern_correct",
    "maximum_pattern_dark_correct",
    "maximum_pattern_order_independent",
    "maximum_pattern_small_dark_undefined"
   ],
   "note": ""
  },
  {
   "property": "C12",
   "status": "proved",
   "theorems": [
    "stream_decodes",
    "stream_iteration"
   ],
   "note": "Bytes to blocks for all lists of files of well-formed records of version 1, 2, 3; records may continue in the next file."
  },
  {
   "property": "C13",
   "status": "proved",
   "theorems": [
    "stream_reset_restarts",
    "stream_reset_iteration"
   ],
   "note": "For arbitrary file contents and arbitrary histories of reads and resets."
  },
  {
   "property": "C14",
   "status": "proved",
   "theorems": [
    "sectors_fill_frame",
    "pixel_source_576",
    "pixel_source_bijective",
    "sector_outside_frame_undefined"
   ],
   "note": "For every frame size divisible into four sectors, the code's 576x576 included; sector numbers outside 0..3 are undefined behaviour."
  },
  {
   "property": "C15",
   "status": "proved",
   "theorems": [
    "sector_reader_exactly_once",
    "frame_block_contents",
    "sector_same_position_mixed_refuted",
    "sector_truncated_data_accepted",
    "sector_truncated_header_undefined",
    "sector_cut_file_unreported"
   ],
   "note": "Positions at most once per sector, as in the quantifier; what happens outside it is shown by the refuted/undefined theorems."
  },
  {
   "property": "C16",
   "status": "proved",
   "theorems": [
    "sector_reset_restarts",
    "sector_reset_midway_refuted"
   ],
   "note": "Proved once the end of the data has been reported; the unrestricted claim is refuted for every frame size."
  },
  {
   "property": "C17",
   "status": "proved",
   "theorems": [
    "captured_fraction",
    "captured_one_iff",
    "captured_nothing",
    "captured_one_missing_refuted"
   ],
   "note": "binary32 modelled with Flocq; 'exactly 1 iff complete' holds up to 2^24 sectors and is refuted for a 4096x4096 scan."
  },
  {
   "property": "C18",
   "status": "proved",
   "theorems": [
    "h5_frames_correct",
    "h5_cube_correct",
    "h5_distinct_positions",
    "h5_outside_scan_reported",
    "to_hdf5_correct",
    "h5_frames_large_scan_undefined"
   ],
   "note": "The HDF5 library itself is modelled as an array with box writes."
  },
  {
   "property": "C19",
   "status": "proved",
   "theorems": [
    "threaded_exactly_once",
    "threaded_holds_only_incomplete",
    "threaded_delivers_only_complete",
    "threaded_never_undefined",
    "threaded_one_thread_per_file",
    "threaded_reads_own_file",
    "threaded_can_finish",
    "threaded_work_bounded",
    "threaded_worker_count",
    "threaded_second_read_all_refuted",
    "threaded_streams_race_refuted",
    "threaded_duplicate_sector_refuted"
   ],
   "note": "Every interleaving of any number of workers at the granularity of shared accesses; data races on pixels and use of erased frames are UB in the model and proved absent when no (frame, sector) is recorded twice. Findings: unlocked m_streams.empty(), duplicate sectors (use after free), futures never cleared."
  },
  {
   "property": "C20",
   "status": "proved",
   "theorems": [
    "multipass_scan_map",
    "multipass_scan_map_deterministic",
    "multipass_headers_progress",
    "multipass_headers_bounded",
    "multipass_bad_files_refuted",
    "multipass_duplicate_sector_refuted"
   ],
   "note": "Every interleaving of any number of workers; undefined behaviour and races proved absent for files of the stated form; positions outside the scan, a short first file and duplicate sectors are shown to be undefined."
  },
  {
   "property": "C21",
   "status": "proved",
   "theorems": [
    "multipass_claims_once",
    "multipass_read_all_exactly_once",
    "multipass_read_all_can_finish",
    "multipass_frames_progress",
    "multipass_second_read_all_refuted"
   ],
   "note": "First readAll of a reader; a second one delivers nothing and raises (refuted theorem)."
  },
  {
   "property": "C22",
   "status": "proved",
   "theorems": [
    "multipass_frame_assembled",
    "multipass_block_pixels",
    "multipass_read_all_exactly_once",
    "multipass_cut_file_refuted"
   ],
   "note": "For files of whole records; a cut file makes later frames silently wrong (refuted theorem)."
  },
  {
   "property": "C23",
   "status": "proved",
   "theorems": [
    "multipass_load_frames",
    "multipass_frame_numbers_unique",
    "multipass_num_frames"
   ],
   "note": "After any sequence of calls on the reader."
  },
  {
   "property": "C24",
   "status": "proved",
   "theorems": [
    "threaded_count_correct",
    "threaded_count_safe"
   ],
   "note": "All worker counts and interleavings; safety for deliveries with distinct positions (see C49 for the race otherwise)."
  },
  {
   "property": "C25",
   "status": "proved",
   "theorems": [
    "padding_correct",
    "threaded_count_correct"
   ],
   "note": ""
  },
  {
   "property": "C26",
   "status": "proved",
   "theorems": [
    "threaded_count_terminates",
    "threaded_count_hangs",
    "threaded_count_blocks_forever",
    "threaded_count_zero_samples_undefined",
    "threaded_count_no_flag_undefined"
   ],
   "note": "Termination under every schedule (bounded length, no deadlock); hang proved when complete blocks are too few."
  },
  {
   "property": "C27",
   "status": "proved",
   "theorems": [
    "preprocess_correct",
    "count_frame_correct",
    "u16_dark_subtraction_wraps",
    "u16_dark_above_pixel_refuted",
    "classic_without_dark_undefined",
    "classic_dark_above_pixel_undefined"
   ],
   "note": ""
  },
  {
   "property": "C28",
   "status": "proved",
   "theorems": [
    "row_dark_square_correct",
    "row_dark_nonsquare_refuted",
    "row_dark_median_width_one_undefined",
    "median_is_middle"
   ],
   "note": "Holds for square frames; refuted for non-square ones (arguments swapped)."
  },
  {
   "property": "C29",
   "status": "proved",
   "theorems": [
    "threaded_events_local",
    "classic_events_local"
   ],
   "note": ""
  },
  {
   "property": "C30",
   "status": "proved",
   "theorems": [
    "py_reader_after_reset",
    "py_reader_fresh",
    "py_reader_iteration",
    "py_zero_block_size_refuted",
    "py_upper_bound_wraps_refuted",
    "py_short_dataset_refuted",
    "py_transposed_dataset_refuted"
   ],
   "note": "For C-contiguous data sets with total + block size <= 2^32; block size 0, wrapping sizes, short and transposed data sets are shown to go wrong."
  },
  {
   "property": "C31",
   "status": "proved",
   "theorems": [
    "image_view_correct",
    "radial_view_correct",
    "block_view_square",
    "block_view_right_iff",
    "block_view_out_of_bounds_iff"
   ],
   "note": "The Block view is right exactly for square or one-row frames, and reads out of bounds exactly when frames are higher than wide."
  },
  {
   "property": "C32",
   "status": "proved",
   "theorems": [
    "mpi_share_partition"
   ],
   "note": "shares of files (initMPI) and scan positions (partitionScanMap)"
  },
  {
   "property": "C33",
   "status": "proved",
   "theorems": [
    "mpi_samples_total",
    "mpi_samples_fair_refuted"
   ],
   "note": "sum and bounds proved; fairness is false and refuted"
  },
  {
   "property": "C34",
   "status": "proved",
   "theorems": [
    "mpi_scan_map",
    "mpi_scan_map_can_finish",
    "mpi_read_all_exactly_once",
    "mpi_read_all_can_finish",
    "mpi_same_as_single",
    "mpi_num_frames_then_read_all",
    "mpi_gather_events",
    "mpi_gather_events_can_finish",
    "mpi_gather_events_owner",
    "mpi_more_ranks_than_positions_refuted"
   ],
   "note": "maps smaller than 2^31 bytes on the wire; MPI collectives and cereal modelled as documented; with more ranks than positions a second call duplicates frames (refuted)"
  },
  {
   "property": "C35",
   "status": "proved",
   "theorems": [
    "mpi_block_round_trip",
    "mpi_gather_blocks",
    "mpi_block_size_wrap_refuted",
    "mpi_gather_blocks_too_large_refuted"
   ],
   "note": "fewer than 2^32 pixels per block and 2^31 bytes in total; beyond that refuted"
  },
  {
   "property": "C36",
   "status": "proved",
   "theorems": [
    "C36_dense_values",
    "C36_sum_scan",
    "C36_sum_frame",
    "C36_max_scan",
    "C36_min_scan",
    "C36_max_frame",
    "C36_min_frame",
    "C36_mean_scan",
    "C36_mean_frame",
    "C36_max_frame_empty_refuted",
    "C36_mean_scan_saturates_refuted",
    "C36_duplicate_in_frame_refuted"
   ],
   "note": "sum and mean, min and max over the scan or the frame axes; findings: max over the frame raises on a position without events, the float32 mean saturates at 2^24 events, duplicates inside one frame"
  },
  {
   "property": "C37",
   "status": "proved",
   "theorems": [
    "C37_bin_scans"
   ],
   "note": "all factors dividing a two-dimensional scan"
  },
  {
   "property": "C38",
   "status": "proved",
   "theorems": [
    "C38_bin_frames",
    "C38_not_square_refuted"
   ],
   "note": "square frames; refuted for frames that are not square"
  },
  {
   "property": "C39",
   "status": "proved",
   "theorems": [
    "C39_slice_sparse",
    "C39_slice_dense",
    "C39_no_repeats",
    "C39_value_or_raise",
    "C39_reshape",
    "C39_ravel_scans",
    "C39_repeated_index_refuted"
   ],
   "note": "integers, slices, 1-D integer and boolean arrays and 2-D boolean arrays; repeated frame indices are refuted; also reshape and ravel_scans"
  },
  {
   "property": "C40",
   "status": "proved",
   "theorems": [
    "C40_v2_to_v3",
    "C40_v1_to_v2",
    "C40_v1_to_v3",
    "C40_dispatch",
    "C40_v1_permuted_refuted",
    "C40_empty_raises",
    "C40_long_v1_refuted"
   ],
   "note": "data in scan order (or without duplicates); permuted positions with duplicates lose their positions (refuted); empty data raise; version-1 data longer than the scan are taken for version 2 (refuted)"
  },
  {
   "property": "C41",
   "status": "proved",
   "theorems": [
    "C41_round_trip",
    "C41_flyback",
    "C41_old_versions",
    "C41_newer_version",
    "C41_flat_scan_refuted",
    "C41_flyback_v2_refuted"
   ],
   "note": "HDF5 modelled as named arrays and attributes; one-dimensional scans cannot be written (refuted); flyback removal on version-2 files is wrong (refuted)"
  },
  {
   "property": "C42",
   "status": "proved",
   "theorems": [
    "C42_versions_agree",
    "C42_values",
    "C42_replace_nans",
    "C42_dense",
    "C42_unknown_version",
    "C42_not_square_refuted",
    "C42_no_frames_refuted",
    "C42_crop_own_center_refuted"
   ],
   "note": "IEEE arithmetic through Flocq; sizes within com_limits (no intermediate rounding); non-square frames, no frame slots and cropping around the own centre are refuted"
  },
  {
   "property": "C43",
   "status": "proved",
   "theorems": [
    "stem_arguments_validated",
    "sparse_arguments_validated"
   ],
   "note": ""
  },
  {
   "property": "C44",
   "status": "proved",
   "theorems": [
    "stream_truncated_reported",
    "stream_read_any",
    "stream_unknown_version",
    "stream_constructor_errors",
    "stream_truncated_middle_file_refuted",
    "stream_v1_header_undefined"
   ],
   "note": "Proved for a cut last file; for a cut file followed by another one the claim is refuted (misaligned data without an error)."
  },
  {
   "property": "C45",
   "status": "proved",
   "theorems": [
    "u16_event_between_thresholds",
    "single_pixel_event_refuted"
   ],
   "note": ""
  },
  {
   "property": "C46",
   "status": "proved",
   "theorems": [
    "events_not_adjacent",
    "event_count_bound"
   ],
   "note": ""
  },
  {
   "property": "C47",
   "status": "proved",
   "theorems": [
    "events_order_invariant"
   ],
   "note": ""
  },
  {
   "property": "C48",
   "status": "proved",
   "theorems": [
    "classic_count_correct"
   ],
   "note": ""
  },
  {
   "property": "C49",
   "status": "proved",
   "theorems": [
    "threaded_count_safe",
    "threaded_count_workers_exclusive",
    "threaded_count_two_frames_race_refuted"
   ],
   "note": "Race free when every position has one frame; workers never race with each other, whatever the positions; refuted by a concrete schedule otherwise."
  },
  {
   "property": "C50",
   "status": "proved",
   "theorems": [
    "C50_masked_sum",
    "C50_full_mask",
    "C50_complement",
    "C50_wrong_shape"
   ],
   "note": "modulo 2^bits of the array's type"
  },
  {
   "property": "C51",
   "status": "proved",
   "theorems": [
    "C51_event_lists",
    "C51_sparse_data",
    "C51_out_of_range"
   ],
   "note": "uint64 accumulator"
  },
  {
   "property": "C52",
   "status": "proved",
   "theorems": [
    "C52_virtual_darkfield",
    "C52_row_column_swapped_refuted",
    "C52_not_square_refuted",
    "C52_far_centre_refuted"
   ],
   "note": "square frames, integer centres and radii; swapped centre arguments, non-square frames and far centres are refuted"
  },
  {
   "property": "C53",
   "status": "proved",
   "theorems": [
    "C53_radial_sum_sparse",
    "C53_conservation",
    "C53_last_bin_closed_refuted"
   ],
   "note": "frame sides and centre up to 2^24"
  },
  {
   "property": "C54",
   "status": "proved",
   "theorems": [
    "C54_filter_values",
    "C54_filter_range",
    "C54_filter_fills",
    "C54_first_row_refuted"
   ],
   "note": "values up to 2^90 or NaN; the first row and column are refuted"
  },
  {
   "property": "C55",
   "status": "proved",
   "theorems": [
    "C55_safe_cast_exact",
    "C55_safe_cast_raises",
    "C55_safe_cast_nan",
    "C55_gain_power_of_two",
    "C55_gain_refuted"
   ],
   "note": "values up to 2^90; binary32/binary64 through Flocq"
  },
  {
   "property": "C56",
   "status": "proved",
   "theorems": [
    "C56_sparse_array",
    "C56_threaded_end_to_end",
    "C56_frame_shape_refuted"
   ],
   "note": "end to end for uint16 frames with or without a dark reference (no gain, no row correction); any frame counter with distinct in-range events in C56_sparse_array; the frame shape of non-square frames is refuted"
  },
  {
   "property": "C57",
   "status": "proved",
   "theorems": [
    "C57_samples",
    "C57_every_frame_possible",
    "C57_samples_gain",
    "C57_below_dark_refuted",
    "C57_dark_range_refuted",
    "C57_gain_refuted"
   ],
   "note": "random numbers are an arbitrary function; frames of at most 2^31 sampled pixels in all; wrapping, dark levels of 32768 or more, pixels below dark with gain and lost fractions are refuted"
  },
  {
   "property": "C58",
   "status": "proved",
   "theorems": [
    "C58_mean",
    "C58_variance",
    "C58_single_pixel_refuted"
   ],
   "note": "IEEE doubles through Flocq; pow(t, 2.0) taken as the rounded square; a single pixel is refuted"
  },
  {
   "property": "C59",
   "status": "proved",
   "theorems": [
    "C59_thresholds",
    "C59_no_undefined_behaviour",
    "C59_background",
    "C59_low_outlier_refuted",
    "C59_constant_refuted",
    "C59_wide_range_refuted",
    "C59_brightest_left_out_refuted"
   ],
   "note": "the Levenberg-Marquardt solver is an arbitrary function; without the variance and range conditions the claim is false (refuted: low outlier, constant, wide range)"
  },
  {
   "property": "C60",
   "status": "proved",
   "theorems": [
    "multipass_count_correct",
    "multipass_count_safe",
    "multipass_count_terminates",
    "multipass_count_hangs",
    "multipass_count_schedule_independent",
    "multipass_count_sparse",
    "scan_blocks_exist"
   ],
   "note": "reader and counter in one transition system; thresholds and frame counter are parameters, instantiated with the uint16 counter (no gain, no row correction) in multipass_count_sparse"
  },
  {
   "property": "C61",
   "status": "proved",
   "theorems": [
    "threaded_reader_count_never_returns",
    "threaded_reader_count_defined_refuted",
    "multipass_count_twice_refuted"
   ],
   "note": "the claim is refuted for every recording, by theorems"
  },
  {
   "property": "C62",
   "status": "proved",
   "theorems": [
    "read_frames_correct",
    "read_frames_can_finish",
    "multipass_scan_dimensions",
    "read_frames_all_refuted"
   ],
   "note": "fewer than 2^32 records in all; None as frames_slice is refuted for positions with fewer frames than the maximum"
  },
  {
   "property": "C63",
   "status": "proved",
   "theorems": [
    "save_raw_data_stores",
    "save_raw_data_again",
    "raw_file_stem_images",
    "raw_array_stem_images",
    "raw_array_needs_dimensions",
    "raw_array_strided_refuted"
   ],
   "note": "HDF5 as named arrays; fewer than 2^32 - 32 frames; arrays passed directly must be C-contiguous (other layouts refuted)"
  },
  {
   "property": "C64",
   "status": "proved",
   "theorems": [
    "sparse_array_stem_images",
    "sparse_array_stem_images_dense",
    "listed_events_stem_images",
    "counted_array_stem_images",
    "sparse_array_not_square_refuted",
    "counted_array_in_place_refuted"
   ],
   "note": "square frames for agreement with the dense array; non-square frames and in-place changes of counted arrays are refuted"
  },
  {
   "property": "C65",
   "status": "proved",
   "theorems": [
    "C65_electron_count",
    "C65_reset_then_count",
    "C65_too_few_blocks",
    "C65_second_count_stops",
    "C65_no_dark_undefined",
    "C65_stream_files",
    "C65_array",
    "C65_below_dark_refuted",
    "C65_sector_reader_refuted"
   ],
   "note": "binary32/binary64 through Flocq; row dark correction off; np.power(gain, -1) is an input; the solver is an arbitrary function; SectorReader and pixels below the dark level are refuted"
  },
  {
   "property": "C66",
   "status": "proved",
   "theorems": [
    "C66_new_by_id",
    "C66_new_by_num",
    "C66_old_by_threshold",
    "C66_old_by_id_exact",
    "C66_old_by_num_exact",
    "C66_old_by_id",
    "C66_old_by_num",
    "C66_any_version_id",
    "C66_any_version_num",
    "C66_found",
    "C66_bad_input",
    "C66_old_id_refuted",
    "C66_old_unique_refuted",
    "C66_old_num_refuted",
    "C66_both_given_refuted",
    "C66_long_number_refuted"
   ],
   "note": "ids, numbers and thresholds are natural numbers; old names by id or number only where no other number begins with the same digits (refuted otherwise)"
  },
  {
   "property": "C67",
   "status": "proved",
   "theorems": [
    "C67_average",
    "C67_maximum",
    "C67_radial_sum",
    "C67_histogram",
    "C67_terminates",
    "C67_reset_is_new",
    "C67_second_call_empty",
    "C67_maximum_dark_refuted"
   ],
   "note": "a dark reference for the maximum pattern is refuted; histogram bins as in C08"
  },
  {
   "property": "C68",
   "status": "proved",
   "theorems": [
    "C68_average_dark",
    "C68_average_refused",
    "C68_odd_number_refuted",
    "C68_power_of_two_frames",
    "C68_plain_dark",
    "C68_in_place",
    "C68_derived_array_ignored",
    "C68_new_image_array_ignored",
    "C68_fortran_order",
    "C68_derived_array_refuted",
    "C68_fortran_order_refuted"
   ],
   "note": "exact condition for averages; derived arrays, constructed ImageArrays and Fortran order are refuted; row dark correction off; solver an arbitrary function"
  },
  {
   "property": "C69",
   "status": "proved",
   "theorems": [
    "C69_slopes_exist",
    "C69_gradient",
    "C69_exact",
    "C69_regularised",
    "C69_every_odd_image",
    "C69_any_phase",
    "C69_linear",
    "C69_offset",
    "C69_zero_mean",
    "C69_only_pixels",
    "C69_rotation",
    "C69_mirror",
    "C69_com_order",
    "C69_curl",
    "C69_no_division_by_zero",
    "C69_com_order_refuted",
    "C69_nyquist_refuted"
   ],
   "note": "real and complex arithmetic, no rounding; the transforms are their defining sums; the order of com_sparse without turning and waves of two pixels are refuted"
  },
  {
   "property": "C70",
   "status": "proved",
   "theorems": [
    "C70_misfit",
    "C70_jacobian",
    "C70_sign",
    "C70_true_curve",
    "C70_identified",
    "C70_full_rank",
    "C70_bins",
    "C70_two_bins_refuted"
   ],
   "note": "real arithmetic, no rounding; the convergence of Eigen's solver is not modelled; two bins are refuted"
  },
  {
   "property": "C71",
   "status": "proved",
   "theorems": [
    "C71_closes",
    "C71_text",
    "C71_session",
    "C71_nothing_left",
    "C71_text_leak_refuted",
    "C71_type_failure_refuted",
    "C71_attribute_overrun_refuted"
   ],
   "note": "the HDF5 library is the environment (H5LibModel.v), with any pattern of failing calls; text attributes leak a datatype, an unknown type is reported as Int8 and attributes of several values overrun (refuted)"
  },
  {
   "property": "C72",
   "status": "proved",
   "theorems": [
    "C72_write",
    "C72_read",
    "C72_round_trip",
    "C72_region",
    "C72_update",
    "C72_set_attribute",
    "C72_attribute",
    "C72_attribute_round_trip",
    "C72_create",
    "C72_create_group",
    "C72_children",
    "C72_all_data_sets",
    "C72_set_text",
    "C72_text_round_trip",
    "C72_data_type",
    "C72_attribute_type",
    "C72_as_much_as_possible_refuted",
    "C72_bad_region_refuted",
    "C72_other_type_refuted",
    "C72_failed_write_refuted",
    "C72_empty_attribute_refuted",
    "C72_children_refuted"
   ],
   "note": "the HDF5 library is the environment (H5LibModel.v), with any pattern of failing calls; values are not converted between types; six claims are refuted"
  },
  {
   "property": "C73",
   "status": "proved",
   "theorems": [
    "C73_export",
    "C73_read_back",
    "C73_from_files",
    "C73_attribute_refuted",
    "C73_no_frames_refuted",
    "C73_old_file_refuted"
   ],
   "note": "the HDF5 library is the environment (H5LibModel.v), with any pattern of failing calls; one frame per block, as the sector reader delivers; three claims are refuted"
  },
  {
   "property": "C74",
   "status": "proved",
   "theorems": [
    "C74_sector",
    "C74_usual_name",
    "C74_directory_refuted",
    "C74_ending_refuted"
   ],
   "note": "names without line breaks; two claims are refuted"
  },
  {
   "property": "C75",
   "status": "proved",
   "theorems": [
    "C75_stream",
    "C75_truncated",
    "C75_sector",
    "C75_raw_file",
    "C75_defined",
    "C75_refused",
    "C75_threads",
    "C75_threaded_refuted",
    "C75_ignored_refuted",
    "C75_version_zero_refuted",
    "C75_unnumbered_undefined"
   ],
   "note": "without MPI; option values are integers; files do not change while they are read; four claims are refuted, each by a theorem that says exactly what happens instead"
  },
  {
   "property": "C76",
   "status": "proved",
   "theorems": [
    "C76_listed",
    "C76_call",
    "C76_separate",
    "C76_calls_stay",
    "C76_by_place_refuted",
    "C76_not_taken_refuted",
    "C76_shared_refuted"
   ],
   "note": "functions without *args and keyword-only parameters; three claims are refuted, each for all programs"
  },
  {
   "property": "C77",
   "status": "proved",
   "theorems": [
    "C77_results",
    "C77_counts",
    "C77_no_counts",
    "C77_raw",
    "C77_stem",
    "C77_stays",
    "C77_old_file_refuted",
    "C77_flat_scan_refuted"
   ],
   "note": "h5py is trusted; metadata groups as in C41; two claims are refuted, one by a concrete file, one for all histories"
  },
  {
   "property": "C78",
   "status": "proved",
   "theorems": [
    "C78_sum",
    "C78_sum_default",
    "C78_max",
    "C78_min",
    "C78_denied",
    "C78_unchanged",
    "C78_order",
    "C78_negative_refuted",
    "C78_max_type_refuted",
    "C78_default_type_refuted"
   ],
   "note": "NumPy's reduction over axes is part of the model (trusted library); three claims are refuted, two for all arrays, one by a concrete array; mean is C80"
  },
  {
   "property": "C79",
   "status": "proved",
   "theorems": [
    "C79_threaded",
    "C79_multipass",
    "C79_mpi_same_thresholds",
    "C79_classic_metadata_refuted",
    "C79_mpi_metadata_refuted",
    "C79_dark_fraction_refuted",
    "C79_readers_differ_refuted"
   ],
   "note": "the nonlinear solver is a parameter (any result); the value of a pixel is stated for finite thresholds and without row dark subtraction; four claims refuted, three universally"
  },
  {
   "property": "C80",
   "status": "proved",
   "theorems": [
    "C80_mean",
    "C80_mean_all",
    "C80_denied",
    "C80_bad_axes",
    "C80_unchanged",
    "C80_integer_type_refuted"
   ],
   "note": "float types other than float32 are not modelled; values are stated while sum and number of entries are at most 2^24 (beyond that C36_mean_scan_saturates_refuted); the integer type claim is refuted for all arrays"
  },
  {
   "property": "C81",
   "status": "proved",
   "theorems": [
    "C81_call",
    "C81_history",
    "C81_start",
    "C81_sum",
    "C81_select",
    "C81_same_values",
    "C81_negative_shape_refuted",
    "C81_extra_key_refuted",
    "C81_bin_frames_bound",
    "C81_plain_history"
   ],
   "note": "the conditions on single calls (sound_call) are those of C37 - C39; the claims about negative dimensions and surplus keys are refuted for all arrays"
  },
  {
   "property": "C82",
   "status": "proved",
   "theorems": [
    "C82_sessions",
    "C82_files_make_no_difference",
    "C82_raveled_refuted"
   ],
   "note": "HDF5 files as in C41; every session saves to a new file (saving into an existing one is C77)"
  },
  {
   "property": "C83",
   "status": "proved",
   "theorems": [
    "C83_conserved",
    "C83_never_more",
    "C83_recorded",
    "C83_sessions"
   ],
   "note": "within the conditions of C81; a selection that repeats a position holds its electrons twice, as in NumPy"
  }
 ]
}