{
 "claims": [
  {
   "property": "C01",
   "status": "proved",
   "theorems": [
    "C01_metric_name_roundtrip",
    "C01_metric_dirs_distinct"
   ],
   "note": "Byte-level model of convert.go; all byte strings."
  },
  {
   "property": "C02",
   "status": "proved",
   "theorems": [
    "C02_components_safe",
    "C02_under_root",
    "C02_path_determines_metric_and_number",
    "C02_file_number_roundtrip"
   ],
   "note": ""
  },
  {
   "property": "C03",
   "status": "proved",
   "theorems": [
    "C03_record_roundtrip"
   ],
   "note": ""
  },
  {
   "property": "C04",
   "status": "proved",
   "theorems": [
    "C04_split_lossless"
   ],
   "note": "For record sizes 25..65559 (others are refused by the code or make it panic)."
  },
  {
   "property": "C05",
   "status": "proved",
   "theorems": [
    "C05_single_byte_corruption_detected"
   ],
   "note": "Real CRC-32C; every single-byte change outside the two length bytes."
  },
  {
   "property": "C06",
   "status": "proved",
   "theorems": [
    "C06_metadata_roundtrip"
   ],
   "note": ""
  },
  {
   "property": "C07",
   "status": "proved",
   "theorems": [
    "C07_data_record_roundtrip",
    "C07_announced_size"
   ],
   "note": "Encodings shorter than 2^62 bytes; nil and empty slices identified."
  },
  {
   "property": "C08",
   "status": "partial",
   "theorems": [
    "C08_decode_no_panic_refuted",
    "C08_decode_no_panic_partial"
   ],
   "note": "The full statement is refuted (a length varint that overflows int makes both decoders panic); proved: termination on all inputs and no panic without such varints."
  },
  {
   "property": "C09",
   "status": "proved",
   "theorems": [
    "C09_created_geometry",
    "C09_accepted"
   ],
   "note": ""
  },
  {
   "property": "C10",
   "status": "proved",
   "theorems": [
    "C10_store_record",
    "C10_store_metadata",
    "C10_outside_slots_refused",
    "C10_created_files_are_good"
   ],
   "note": ""
  },
  {
   "property": "C11",
   "status": "proved",
   "theorems": [
    "C11_write_position_found",
    "C11_hint_full"
   ],
   "note": ""
  },
  {
   "property": "C12",
   "status": "partial",
   "theorems": [
    "C12_any_size_partial",
    "C12_query_returns_the_retained_values_partial",
    "C12_full_queries_are_exact"
   ],
   "note": "Proved: every query answers exactly the retained acknowledged values before its bound, in strictly decreasing order, unless no value of the newest file is before the bound (then it answers nothing: C23_refuted). Queries with a bound after the newest value are exact, and nothing is dropped with files=0. Scope: values that fit an empty file, non-zero end times (see C13_refuted). Also for values of any size when no handles are cached (C12_any_size_partial)."
  },
  {
   "property": "C13",
   "status": "partial",
   "theorems": [
    "C13_any_size_latest_is_newest_acknowledged_partial",
    "C13_latest_is_newest_acknowledged_partial",
    "C13_refuted"
   ],
   "note": "Refuted in full: after a rejected too-large write an acknowledged write is lost. Proved for histories of values that fit, end < MaxInt64. Proved for values of any size when no handles are cached (handles = 0)."
  },
  {
   "property": "C14",
   "status": "proved",
   "theorems": [
    "C14_any_size_old_writes_refused",
    "C14_old_writes_refused_without_effect",
    "C14_newer_writes_accepted"
   ],
   "note": "Including histories with rejected too large values when no handles are cached."
  },
  {
   "property": "C15",
   "status": "partial",
   "theorems": [
    "C15_handle_cache_invisible_partial",
    "C15_refuted"
   ],
   "note": "Refuted in full (too-large values). Proved for histories of values that fit: answers identical for all capacities and random streams."
  },
  {
   "property": "C16",
   "status": "proved",
   "theorems": [
    "C16_disk_usage_bounded",
    "C16_unlimited_keeps_everything",
    "C16_retention_lower_bound"
   ],
   "note": "Files counted on the modelled disk; bytes below size*(cap+1)*(files+1). Lower bound: the newest values needing at most files*(cap-r+1)+1 records are always kept."
  },
  {
   "property": "C17",
   "status": "partial",
   "theorems": [
    "C17_any_size_failed_write_partial",
    "C17_failed_write_keeps_data_partial",
    "C17_refuted"
   ],
   "note": "Refuted in full: a failing write can remove the oldest file. Proved for values that fit. For any size with handles = 0: other metrics unchanged, at most the oldest values of the same metric lost, nothing lost when files are unlimited."
  },
  {
   "property": "C18",
   "status": "partial",
   "theorems": [
    "C18_fitting_values_accepted_partial",
    "C18_refuted",
    "C18_too_large_rejected"
   ],
   "note": "Refuted in full: head off by one in metric.go:255 (capacity 1 never accepts a second value). Proved: the only rejected fitting values are those of that case; too large values are rejected."
  },
  {
   "property": "C19",
   "status": "proved",
   "theorems": [
    "C19_metrics_do_not_interfere"
   ],
   "note": "Values returned by any query; the status may change from error to empty when a directory is created (C19_status_change)."
  },
  {
   "property": "C20",
   "status": "partial",
   "theorems": [
    "C20_crash_keeps_the_retained_values_partial",
    "C20_C21_refuted_torn_metadata",
    "C20_C21_refuted_create",
    "C20_refuted_drop_first",
    "C20_refuted_checksum_collision"
   ],
   "note": "Refuted in full by four concrete crash states (torn metadata, crash in createFile, oldest file dropped before the new value is stored, checksum collision). Proved for every history, value and crash point (any subset of the bytes of the store in progress) except those inside createFile and the metadata, when half stored records do not collide."
  },
  {
   "property": "C21",
   "status": "partial",
   "theorems": [
    "C21_recovers_from_clean_crashes_partial",
    "C21_newer_write_is_accepted_partial",
    "C21_refuted_torn_record",
    "C21_refuted_leftovers",
    "C21_refuted_first_value",
    "C21_refuted_stale_handle"
   ],
   "note": "Refuted in full by six concrete crash states (also: a torn record blocks all writes, leftovers hide an acknowledged value, SmallestEnd of the next value, an unlinked file whose handle stays in the cache). Proved: after clean crashes the database equals the specification machine on every later history."
  },
  {
   "property": "C22",
   "status": "partial",
   "theorems": [
    "C22_queries_read_only_partial",
    "C22_refuted"
   ],
   "note": "Refuted: a query of an intermediate directory creates a data file. Proved: no effect otherwise, in any state."
  },
  {
   "property": "C23",
   "status": "partial",
   "theorems": [
    "C23_bounds_honoured_in_one_file_partial",
    "C23_refuted"
   ],
   "note": "Refuted: SmallestEnd >= end stops the whole read. Proved exact when the retained values are in one file."
  },
  {
   "property": "C24",
   "status": "proved",
   "theorems": [
    "C24_handles_conserved",
    "C24_acquire_gives_a_live_handle_of_that_path",
    "C24_program"
   ],
   "note": "File cache operations in any order; handles numbered as opened; Close calls logged."
  },
  {
   "property": "C25",
   "status": "proved",
   "theorems": [
    "C25_mutual_exclusion",
    "C25_unlock_never_panics",
    "C25_other_keys_do_not_block",
    "C25_no_state_when_idle"
   ],
   "note": "Every schedule of any number of goroutines; the sections of the pool mutex are atomic steps."
  },
  {
   "property": "C26",
   "status": "proved",
   "theorems": [
    "C26_at_most_once",
    "C26_exactly_once_after_shutdown",
    "C26_no_zero_values_no_double_close",
    "C26_offered_to_the_running",
    "C26_accepted_is_left_to_the_running"
   ],
   "note": "Every schedule of any number of Queue and Run calls and workers; callbacks non-nil and not panicking; launcher by its contract (C28)."
  },
  {
   "property": "C27",
   "status": "proved",
   "theorems": [
    "C27_one_active_run",
    "C27_start_iff_none_active",
    "C27_start_not_blocked"
   ],
   "note": ""
  },
  {
   "property": "C28",
   "status": "proved",
   "theorems": [
    "C28_returns_after_all_tasks_with_first_error",
    "C28_cancels_after_first_result",
    "C28_returns_once_tasks_do"
   ],
   "note": "Order of completion = order in which results are delivered."
  },
  {
   "property": "C29",
   "status": "proved",
   "theorems": [
    "C29_sorted_set",
    "C29_order_is_total",
    "C29_early_stop"
   ],
   "note": ""
  },
  {
   "property": "C30",
   "status": "partial",
   "theorems": [
    "C30_metrics_partial",
    "C30_metrics_exact_partial",
    "C30_start_is_known_at_call",
    "C30_refuted",
    "C30_populate_refuted",
    "C30_published_set_mutated"
   ],
   "note": "Refuted in full: overlapping Metrics calls, or PopulateMetrics overlapping a write and a Metrics call, lose acknowledged names for good. Proved: one Metrics/PopulateMetrics caller at a time with any number of concurrent workers. Also shown: Metrics can mutate the published set in place (data race)."
  },
  {
   "property": "C31",
   "status": "proved",
   "theorems": [
    "C31_populate_finds_exactly_the_metrics",
    "C31_populate_created_files"
   ],
   "note": "System calls that fail only with ENOTDIR, context not cancelled."
  },
  {
   "property": "C32",
   "status": "partial",
   "theorems": [
    "C32_parse_entries_partial",
    "C32_progress_partial",
    "C32_refuted"
   ],
   "note": "Refuted for arbitrary bytes (record length 0: endless loop, 18: panic). Proved: exact for every sequence of well-formed entries; progress for every other buffer."
  },
  {
   "property": "C33",
   "status": "proved",
   "theorems": [
    "C33_index_in_range",
    "C33_index_monotone",
    "C33_index_balanced"
   ],
   "note": ""
  },
  {
   "property": "C34",
   "status": "proved",
   "theorems": [
    "C34_zero_value_is_new_0_0",
    "C34_increment_odd",
    "C34_full_period",
    "C34_steps_invertible",
    "C34_word"
   ],
   "note": "Including the exact period 2^64 of the state."
  },
  {
   "property": "C35",
   "status": "partial",
   "theorems": [
    "C35_capture_partial",
    "C35_each_value_once_partial",
    "C35_calls_return_partial",
    "C35_broken_params_refuted",
    "C35_stopped_capture_refuted"
   ],
   "note": "Exact for every history when the distribution parameters can make a sketch and no callback stops a capture (a stopped capture still delivers only exact records). Refuted otherwise: with unusable parameters (compression 0) Observe returns with the mutex held and later Adds and Captures hang; records not visited by a stopped capture are dropped."
  },
  {
   "property": "C36",
   "status": "partial",
   "theorems": [
    "C36_sequential",
    "C36_sequential_total",
    "C36_concurrent_partial",
    "C36_concurrent_after_first_partial",
    "C36_concurrent_refuted",
    "C36_finish_between_sections_refuted"
   ],
   "note": "Sequential use proved in full. Concurrent use: counts, sketch contents and ids always exact, min/max exact once the first observation completed before the others start; refuted in general (two first observers: reported minimum 5 although 3 was observed; a capture between the two sections reports min = max = 0)."
  },
  {
   "property": "C37",
   "status": "proved",
   "theorems": [
    "C37_dump_accounting",
    "C37_cancelled_dump",
    "C37_no_deadlock",
    "C37_buffers_not_shared"
   ],
   "note": "For every order of callbacks and every mix of results; cancelled dumps and buffer ownership included. The database is assumed to call each callback exactly once (C26)."
  },
  {
   "property": "C38",
   "status": "partial",
   "theorems": [
    "C38_accepts",
    "C38_metadata",
    "C38_ids_partial",
    "C38_ids_refuted"
   ],
   "note": "Acceptance, times, counts, extremes and merge counts proved for every list (non-NaN extremes, totals within int64). The id of an extreme is right unless the first record holds the extreme; then it is dropped (refuted)."
  },
  {
   "property": "C39",
   "status": "partial",
   "theorems": [
    "C39_columns_partial",
    "C39_produced_partial",
    "C39_other_pixels_partial",
    "C39_older_record_refuted",
    "C39_small_duration_refuted",
    "C39_end_now_refuted"
   ],
   "note": "Exact for every width, window of at least 1ns per pixel and newest-first list of records that end before now and within the window. Refuted otherwise: a record that ended before the window (the server pushes one) is drawn in pixel 0; a window shorter than the width panics; a record ending at now is drawn off the canvas."
  },
  {
   "property": "C40",
   "status": "partial",
   "theorems": [
    "C40_decides",
    "C40_glob_partial",
    "C40_sound",
    "C40_final_star",
    "C40_glob_refuted"
   ],
   "note": "Exact for patterns that do not end in *; a final * needs at least one character (proved equal to a final ?), so the full property is refuted: abc* does not match abc."
  },
  {
   "property": "C41",
   "status": "proved",
   "theorems": [
    "C41_spec",
    "C41_plain_words",
    "C41_components"
   ],
   "note": ""
  },
  {
   "property": "C42",
   "status": "proved",
   "theorems": [
    "C42_query_words",
    "C42_search",
    "C42_stops",
    "C42_full",
    "C42_words",
    "C42_negative_capacity"
   ],
   "note": ""
  },
  {
   "property": "C43",
   "status": "partial",
   "theorems": [
    "C43_denied",
    "C43_credentials",
    "C43_methods",
    "C43_unknown_path_partial",
    "C43_unknown_path_refuted",
    "C43_origin"
   ],
   "note": "Access control and methods proved for every configuration, request and environment. Unknown paths are 404 only without a static handler; with one (always the case in `rothko run`) the static handler answers (refuted)."
  },
  {
   "property": "C44",
   "status": "proved",
   "theorems": [
    "C44_accepted",
    "C44_effect",
    "C44_returns"
   ],
   "note": "strconv.ParseFloat is a black box. NaN and infinities parse but do not count as observations. The timestamp field is ignored by the code."
  },
  {
   "property": "C45",
   "status": "partial",
   "theorems": [
    "C45_new",
    "C45_view",
    "C45_set",
    "C45_raw",
    "C45_drawing",
    "C45_image",
    "C45_nested_view_refuted"
   ],
   "note": "Proved for every image and every view of an image. A view of a view replaces the offsets instead of adding them (C45_nested_view_refuted). Go ints are unbounded in this model (4*w*h is the size of an existing slice)."
  },
  {
   "property": "C46",
   "status": "partial",
   "theorems": [
    "C46_dyadic",
    "C46_monotone",
    "C46_accurate",
    "C46_query",
    "C46_observe_first",
    "C46_stale_refuted"
   ],
   "note": "CDF proved for a digest that does not change after the first CDF call; an Observe after a CDF leaves stale memoized quantiles (C46_stale_refuted). Query is exact in every history. The t-digest library is a black box."
  },
  {
   "property": "C47",
   "status": "proved",
   "theorems": [
    "C47_accepted",
    "C47_contents",
    "C47_order",
    "C47_redact",
    "C47_logs",
    "C47_database_config_logged"
   ],
   "note": "toml decoding (incl. the duration text) is a parameter; Go map order arbitrary. Also proved: start-up logs do not depend on the api secrets; the database/listener configurations are logged unredacted (C47_database_config_logged)."
  },
  {
   "property": "C48",
   "status": "proved",
   "theorems": [
    "C48_latest_wins",
    "C48_cases",
    "C48_new_pure",
    "C48_reentrant_maker_refuted"
   ],
   "note": "For makers that return without calling the registry; a maker that does deadlocks the registry (C48_reentrant_maker_refuted)."
  },
  {
   "property": "C49",
   "status": "proved",
   "theorems": [
    "C49_files_words",
    "C49_tdigest_words",
    "C49_graphite_words",
    "C49_access",
    "C49_sticky",
    "C49_programs",
    "C49_first_error",
    "C49_negative_index_refuted",
    "C49_files_config",
    "C49_tdigest_config",
    "C49_graphite_config"
   ],
   "note": "For non-negative list indexes; a negative index panics (C49_negative_index_refuted). Includes exact acceptance of the three built-in component configurations."
  },
  {
   "property": "C50",
   "status": "partial",
   "theorems": [
    "C50_refuted",
    "C50_number_partial",
    "C50_first_call_partial",
    "C50_all_at_once_panics"
   ],
   "note": "Refuted: Readdir keeps the prefix instead of the rest of the listing. Proved: number of entries and end of file right for all positive counts; the listing is right iff the first call takes the whole directory."
  },
  {
   "property": "C51",
   "status": "partial",
   "theorems": [
    "C51_no_value_captured_twice_partial",
    "C51_delivered_values_were_added_partial",
    "C51_values_are_kept_partial",
    "C51_pages_are_taken_once_partial",
    "C51_records_are_complete_partial",
    "C51_capture_panics_refuted",
    "C51_value_lost_refuted"
   ],
   "note": "At most once delivery and right metric proved for every schedule. Refuted: Capture overlapping the first Add of a metric panics on a nil distribution; values can be lost (documented in the code)."
  },
  {
   "property": "C52",
   "status": "partial",
   "theorems": [
    "C52_query_partial",
    "C52_form",
    "C52_query_database_error",
    "C52_results_number",
    "C52_query_refuted"
   ],
   "note": "Proved for a non-negative number of results; a negative number panics the handler (refuted)."
  },
  {
   "property": "C53",
   "status": "partial",
   "theorems": [
    "C53_render_partial",
    "C53_image_partial",
    "C53_database_error",
    "C53_no_metric",
    "C53_no_data_refuted",
    "C53_rate_refuted"
   ],
   "note": "JSON answer proved to carry exactly the columns of C39 for the records from the newest to the first that ended before the window. Refuted: a metric without data is a 500; a record with merge count 0 (or no duration) makes the answer a 500."
  },
  {
   "property": "C54",
   "status": "proved",
   "theorems": [
    "C54_connection",
    "C54_last_line",
    "C54_long_line"
   ],
   "note": "The 64 KiB limit of bufio.Scanner is part of the statement: a longer line ends the connection and loses the rest of it (C54_long_line). Reads that fail midway are not modelled."
  },
  {
   "property": "C55",
   "status": "partial",
   "theorems": [
    "C55_column_partial",
    "C55_order",
    "C55_top_row_refuted",
    "C55_one_row_refuted",
    "C55_wide_column",
    "C55_wide_column_refuted",
    "C55_other_canvas_partial",
    "C55_other_canvas_refuted"
   ],
   "note": "Sizes up to 2^24. When r(n-1)/(h-1) is an integer the code may show the point below it, so the top row need not show the last point (C55_top_row_refuted); a canvas one pixel high panics (C55_one_row_refuted); a column wider than the image wraps into the next rows (C55_wide_column_refuted); on a canvas that is not an RGB the picture is upside down (C55_other_canvas_refuted). Uses the axioms of the standard library's reals (through Flocq)."
  },
  {
   "property": "C56",
   "status": "partial",
   "theorems": [
    "C56_key_partial",
    "C56_top_row_refuted",
    "C56_one_row_refuted"
   ],
   "note": "Same rounding defect as C55: C56_top_row_refuted, C56_one_row_refuted. Uses the axioms of the standard library's reals (through Flocq)."
  },
  {
   "property": "C57",
   "status": "proved",
   "theorems": [
    "C57_bar",
    "C57_grey"
   ],
   "note": "Rates must be finite and the largest positive (with only zero rates the ratio is NaN and the conversion to byte is left to the platform). The text label is not modelled. Uses the axioms of the standard library's reals (through Flocq)."
  },
  {
   "property": "C58",
   "status": "partial",
   "theorems": [
    "C58_start",
    "C58_builtin",
    "C58_negative_refuted",
    "C58_no_duration_refuted",
    "C58_words"
   ],
   "note": "Makers that return without calling the registry. C58_negative_refuted: an accepted document whose files database has a negative buffer or number of workers does not start nor is it refused: files.New panics. C58_no_duration_refuted: an accepted document without a duration makes the dumper panic after start."
  },
  {
   "property": "C59",
   "status": "proved",
   "theorems": [
    "C59_path",
    "C59_open",
    "C59_implicit_directory"
   ],
   "note": "path.Clean by its documented result on components; gzip/tar decoding is the standard library's. Directories that have no entry of their own have a nil FileInfo (C59_implicit_directory)."
  },
  {
   "property": "C60",
   "status": "proved",
   "theorems": [
    "C60_dump_after_services",
    "C60_database_kept",
    "C60_returns",
    "C60_nothing_lost",
    "C60_cut_cause",
    "C60_terminates",
    "C60_service_error_loses_refuted"
   ],
   "note": "Components are black boxes; a periodic dump is one step. When a service fails there is no last dump (C60_service_error_loses_refuted)."
  },
  {
   "property": "C61",
   "status": "proved",
   "theorems": [
    "C61_decode_follows_wire_format",
    "C61_unknown_fields_ignored"
   ],
   "note": "Specification in WireSpec.v (independent of the decoders)."
  },
  {
   "property": "C62",
   "status": "proved",
   "theorems": [
    "C62_linearizable",
    "C62_any_size_linearizable",
    "C62_files_between_calls",
    "C62_acknowledged_writes_are_visible",
    "C62_latest_is_monotonic"
   ],
   "note": "Atomic actions are cache critical sections, system calls and one load or store per mapped file; the calls write values that fit an empty file (C62_linearizable) or, without kept handles, values of any size (C62_any_size_linearizable)."
  },
  {
   "property": "C63",
   "status": "proved",
   "theorems": [
    "C63_rate"
   ],
   "note": "For records that ended before now and within the window (as C39). A merge count of 0 or a zero length gives an infinite or NaN rate: C53_rate_refuted."
  },
  {
   "property": "C64",
   "status": "proved",
   "theorems": [
    "C64_vertical",
    "C64_horizontal",
    "C64_new_picture",
    "C64_vertical_size",
    "C64_horizontal_size"
   ],
   "note": "Uses the Reals axioms (through Flocq) for the tick positions. The font is any fixed-width one; how it shades its cells is a parameter (shade)."
  },
  {
   "property": "C65",
   "status": "partial",
   "theorems": [
    "C65_first",
    "C65_left_out",
    "C65_vertical",
    "C65_horizontal_partial",
    "C65_horizontal_refuted",
    "C65_vertical_refuted"
   ],
   "note": "Selection proved in full (C65_first, C65_left_out); separation proved for vertical axes up to the base lines (C65_vertical) and for horizontal axes whose labels but the first start after the first ten pixels (C65_horizontal_partial). C65_horizontal_refuted: labels that start in the first ten pixels are never left out and are drawn over each other. C65_vertical_refuted: descents may share rows."
  },
  {
   "property": "C66",
   "status": "partial",
   "theorems": [
    "C66_measure",
    "C66_narrow_refuted",
    "C66_picture",
    "C66_new_canvas",
    "C66_regions",
    "C66_quantiles",
    "C66_quantile_row",
    "C66_drawable"
   ],
   "note": "Proved for charts that can be drawn (drawable; C66_drawable: every chart from 221x52 pixels up, with texts of the usual lengths, and columns inside the heat map). C66_narrow_refuted: a chart less than 100 pixels wide is not refused, measuring it panics (division by zero). Uses the Reals axioms (through Flocq). Texts of numbers and times and the shading of character cells are parameters."
  },
  {
   "property": "C67",
   "status": "partial",
   "theorems": [
    "C67_times",
    "C67_pixels",
    "C67_before_1970_refuted"
   ],
   "note": "C67_before_1970_refuted: with now < 0 the newest label is past the end of the axis. Uses the Reals axioms (through Flocq)."
  },
  {
   "property": "C68",
   "status": "partial",
   "theorems": [
    "C68_picture",
    "C68_heatmap",
    "C68_narrow_refuted",
    "C68_brighter"
   ],
   "note": "For records that ended before now (one that ends exactly now is drawn off the heat map, C39_end_now_refuted); the first column also shows the record that ended before the window. C68_narrow_refuted: a width below 100 panics. PNG encoding is not modelled. Uses the Reals axioms (through Flocq)."
  },
  {
   "property": "C69",
   "status": "proved",
   "theorems": [
    "C69_periods_known",
    "C69_queries_tell_what_was_received",
    "C69_latest",
    "C69_runs",
    "C69_render_input"
   ],
   "note": "Calls do not overlap (C36, C51, C62 are about overlapping ones), dump times increase, records take fewer than cap slots (`roomy`), no Queue call of a dump is refused."
  },
  {
   "property": "C70",
   "status": "partial",
   "theorems": [
    "C70_file",
    "C70_index",
    "C70_unknown",
    "C70_index_redirects",
    "C70_template_error_refuted",
    "C70_fallback_refuted",
    "C70_no_ui",
    "C70_with_ui"
   ],
   "note": "C70_template_error_refuted: the deferred Close is called on the nil named result, so a template that fails panics instead of being answered with an error. C70_fallback_refuted: an unknown path that is not a page is answered with the unrendered text of the index template. The template engine is a parameter."
  },
  {
   "property": "C71",
   "status": "partial",
   "theorems": [
    "C71_records",
    "C71_database",
    "C71_unwritten_refuted",
    "C71_drop_refuted",
    "C71_outcome"
   ],
   "note": "C71_unwritten_refuted: `written` is ignored, so on a database that refuses every value (newer ones are stored) success is reported. C71_drop_refuted: if Queue calls the callback before it returns (full queue with drop, or ctx done) the unbuffered send blocks for ever."
  },
  {
   "property": "C72",
   "status": "partial",
   "theorems": [
    "C72_calls_that_work",
    "C72_no_panic",
    "C72_queries_answer_from_the_log",
    "C72_latest_answers_from_the_log",
    "C72_writes",
    "C72_unusable_only_after_a_failed_creation",
    "C72_other_failures_are_transient",
    "C72_unusable_metrics_refuse_everything",
    "C72_deleting_the_file_repairs",
    "C72_a_failing_write_loses_values_refuted"
   ],
   "note": "All parts but the last are proved. \"A failed call has no lasting effect\" is false of the code: C72_unusable_metrics_refuse_everything (a file whose fallocate or mmap failed stays in the directory and makes every later call on the metric fail, also after restarts, until it is deleted: C72_deleting_the_file_repairs) and C72_a_failing_write_loses_values_refuted (with a file limit the oldest file is deleted before the new one is made)."
  },
  {
   "property": "C73",
   "status": "partial",
   "theorems": [
    "C73_init",
    "C73_seen_kept",
    "C73_race_refuted",
    "C73_partial_write_refuted",
    "C73_no_repair",
    "C73_start_status",
    "C73_initial_trimmed",
    "C73_initial_text",
    "C73_initial_runs"
   ],
   "note": "Proved but for two clauses that are false of the code: C73_race_refuted (a file made by another process between Stat and WriteFile is replaced, with status 0) and C73_partial_write_refuted (a write that fails half way leaves a part of the text, which the next init refuses to replace: C73_no_repair). The initial configuration is read with the small TOML reader of TomlSpec.v; BurntSushi/toml is assumed to read that one text the same way (a hypothesis of C73_initial_runs)."
  },
  {
   "property": "C74",
   "status": "partial",
   "theorems": [
    "C74_new",
    "C74_made",
    "C74_default_handles",
    "C74_guarantees",
    "C74_documented_handles_refuted",
    "C74_unlimited_refuted"
   ],
   "note": "Proved but for the clauses the code does not have: C74_new says exactly when New panics (negative buffer or workers), C74_documented_handles_refuted (512, not the documented 1024, are left), C74_unlimited_refuted (with RLIM_INFINITY no handle is cached)."
  },
  {
   "property": "C75",
   "status": "partial",
   "theorems": [
    "C75_first_is_graceful",
    "C75_done_because",
    "C75_signal_cancels",
    "C75_second_kills",
    "C75_after_cancel_refuted",
    "C75_ignored_forever"
   ],
   "note": "Proved but for the last clause when the context was cancelled before a signal came: C75_after_cancel_refuted, C75_ignored_forever."
  },
  {
   "property": "C76",
   "status": "proved",
   "theorems": [
    "C76_damage_answers",
    "C76_latest",
    "C76_nothing_lost",
    "C76_one_byte",
    "C76_newest_record_refuted",
    "C76_metadata_refuted",
    "C76_truncated_refuted"
   ],
   "note": "The exclusions in the statement are needed: C76_newest_record_refuted (one changed byte there and the metric can never be written again), C76_metadata_refuted, C76_truncated_refuted (endless loop, panic) show what happens outside them."
  },
  {
   "property": "C77",
   "status": "proved",
   "theorems": [
    "C77_power_failure",
    "C77_latest",
    "C77_all_synced",
    "C77_acked_refuted",
    "C77_torn_refuted",
    "C77_new_file_refuted"
   ],
   "note": "C77_acked_refuted, C77_torn_refuted and C77_new_file_refuted show what does not hold (last sentence of the statement). Other metrics' files may be in any state."
  },
  {
   "property": "C78",
   "status": "proved",
   "theorems": [
    "C78_all_lines",
    "C78_lines_in_order",
    "C78_nothing_after_return",
    "C78_result",
    "C78_returns",
    "C78_clients_shut_out",
    "C78_cut_line",
    "C78_keeps_listening_refuted"
   ],
   "note": "C78_keeps_listening_refuted shows the last sentence (one failing Accept ends the listener). Bytes become lines as in C54's scanner; what a line says is a separate small relation (ListenerSpec.says)."
  },
  {
   "property": "C79",
   "status": "proved",
   "theorems": [
    "C79_result",
    "C79_closed",
    "C79_requests_kept",
    "C79_returns",
    "C79_waits_for_requests_refuted",
    "C79_early_cancel_refuted"
   ],
   "note": "C79_waits_for_requests_refuted and C79_early_cancel_refuted show the last sentence. net/http's Serve and Shutdown are modelled from their documentation, for versions before and after Go 1.11."
  },
  {
   "property": "C80",
   "status": "proved",
   "theorems": [
    "C80_refines",
    "C80_nothing_lost",
    "C80_last_dump",
    "C80_sigint",
    "C80_stays_up",
    "C80_accept_error_loses_refuted"
   ],
   "note": "C80_accept_error_loses_refuted shows the last sentence. C80_refines maps this model to the one of C60."
  },
  {
   "property": "C81",
   "status": "proved",
   "theorems": [
    "C81_text",
    "C81_draws_cells",
    "C81_measure",
    "C81_advance",
    "C81_on_white",
    "C81_blend",
    "C81_legible",
    "C81_vertical_labels",
    "C81_horizontal_labels",
    "C81_other_characters",
    "C81_other_characters_refuted",
    "C81_bottom_row_refuted",
    "C81_chart",
    "C81_chart_new"
   ],
   "note": "C81_other_characters_refuted and C81_bottom_row_refuted show the last sentence. C81_draws_cells discharges the assumption about texts of C64 and C66 (C81_chart). The glyph table in Font.v is transcribed from draw/iosevka/font.go by a script; x/image's Face.Glyph, BoundString and DrawString and image/draw's mask drawing are modelled from their documented source, as they are not in /repo."
  },
  {
   "property": "C82",
   "status": "proved",
   "theorems": [
    "C82_fixed",
    "C82_significant",
    "C82_nearest",
    "C82_error",
    "C82_order",
    "C82_three_digits",
    "C82_specials",
    "C82_characters",
    "C82_length",
    "C82_left_axis",
    "C82_right_axis",
    "C82_rate",
    "C82_rate_length",
    "C82_rate_length_refuted",
    "C82_short"
   ],
   "note": "C82_rate_length_refuted shows the exception for exponents of three digits. strconv's and fmt's functions are modelled from their source, as they are not in /repo (both variants of fmt's # flag: up to Go 1.13 and since). C82_short discharges C66_drawable's and C68's assumptions about the lengths of the texts. float16 is a dependency not in /repo: the rounding of a value to 16 bits before its text is part of the arbitrary function `quantile`."
  },
  {
   "property": "C83",
   "status": "proved",
   "theorems": [
    "C83_calendar",
    "C83_text",
    "C83_length",
    "C83_distinct",
    "C83_repeated_hour_refuted",
    "C83_year_refuted",
    "C83_axis",
    "C83_texts",
    "C83_chart"
   ],
   "note": "C83_repeated_hour_refuted and C83_year_refuted show the last but one sentence. Package time is modelled from its source (not in /repo), the zone is an arbitrary function. The specification of the calendar is its successor function (next_day) from 1 January 1970."
  },
  {
   "property": "C84",
   "status": "proved",
   "theorems": [
    "C84_one_reading",
    "C84_names",
    "C84_exact",
    "C84_determined",
    "C84_not_utf8_refuted",
    "C84_graph",
    "C84_harmless",
    "C84_query"
   ],
   "note": "C84_not_utf8_refuted shows the last sentence. The text of a float64 is a parameter required to be a JSON number (C86_json and C86_graph put in the encoder's); encoding/json, base64 and utf8 are modelled from their source (not in /repo). The reader (JsonSpec.v) is a recursive descent reader of RFC 8259."
  },
  {
   "property": "C85",
   "status": "proved",
   "theorems": [
    "C85_number",
    "C85_words",
    "C85_exact",
    "C85_whole",
    "C85_order",
    "C85_line",
    "C85_long_exponent_refuted"
   ],
   "note": "strconv.ParseFloat is Go's, not in /repo: Number.v is its syntax with one correctly rounded division, not its algorithm. Exponents written with an absolute value of 100000 or more are cut to their first five digits there; the theorems leave them out, C85_long_exponent_refuted shows why: such a number after ten thousand zeros is misread."
  },
  {
   "property": "C86",
   "status": "proved",
   "theorems": [
    "C86_nearest",
    "C86_reads_back",
    "C86_json",
    "C86_shortest",
    "C86_exponent",
    "C86_graph"
   ],
   "note": "encoding/json's floatEncoder is modelled from its source; strconv's shortest digits are Go's, not in /repo: FloatText.v finds them by reading back (the first number of digits at which rounding the exact value down or up reads back, the nearer if both do), not by strconv's algorithm."
  },
  {
   "property": "C87",
   "status": "proved",
   "theorems": [
    "C87_exact",
    "C87_close",
    "C87_syntax",
    "C87_text",
    "C87_longest_refuted",
    "C87_zeros_refuted",
    "C87_query"
   ],
   "note": "time.ParseDuration and Duration.String are modelled from their source (Go 1.11, not in /repo). C87_longest_refuted and C87_zeros_refuted show the two exceptions of the last sentence; fractions with more than 22 digits are covered by the syntax theorem only."
  },
  {
   "property": "C88",
   "status": "proved",
   "theorems": [
    "C88_few_bits",
    "C88_burst",
    "C88_database",
    "C88_four_bits_refuted",
    "C88_length_bit_refuted"
   ],
   "note": "C88_four_bits_refuted and C88_length_bit_refuted are the boundary named in the last sentence: four flipped bits and one flipped length bit that are accepted."
  },
  {
   "property": "C89",
   "status": "proved",
   "theorems": [
    "C89_descriptors",
    "C89_mapped_until_closed",
    "C89_no_leak",
    "C89_same_files",
    "C89_database",
    "C89_damaged_file_refuted",
    "C89_small_records_refuted",
    "C89_errors_lost_refuted"
   ],
   "note": "The last sentence of the statement is the boundary: C89_damaged_file_refuted, C89_small_records_refuted and C89_errors_lost_refuted are defects of the code (file.go:67-72 and 115-122 return without unmapping; mmap.go wraps the wrong error)."
  },
  {
   "property": "C90",
   "status": "proved",
   "theorems": [
    "C90_checksum",
    "C90_written",
    "C90_read",
    "C90_database"
   ],
   "note": "Histories of values that fit an empty file, as in C12. The layout of the metadata record is C06's."
  },
  {
   "property": "C91",
   "status": "proved",
   "theorems": [
    "C91_load",
    "C91_plugin_loads",
    "C91_loads_independent",
    "C91_builtin",
    "C91_captured_loads",
    "C91_start_keeps",
    "C91_plugin_refuted"
   ],
   "note": "The t-digest library is a parameter (which bytes it reads). C91_plugin_refuted: a process can start with a plugin's distribution and store records it cannot load: when its maker refuses to work without configuration, or is registered under a name that is not its Kind; and a plugin that replaces \"tdigest\" can make all older records unreadable."
  },
  {
   "property": "C92",
   "status": "proved",
   "theorems": [
    "C92_answers"
   ],
   "note": "Of the environment only Go's types are assumed (bytes, int64s). Columns of 2^63 pixels are excluded. The nonce and pictures are not JSON; errors are plain text (C43)."
  },
  {
   "property": "C93",
   "status": "proved",
   "theorems": [
    "C93_usable",
    "C93_bounded",
    "C93_closed",
    "C93_program"
   ],
   "note": "Exact count needs usable files (every history of a database gives them, C89_database) and munmap to work; C93_usable assumes nothing about the calls. Operations are the critical sections of the cache with the opening and closing of the handle they concern (as in C24)."
  }
 ]
}