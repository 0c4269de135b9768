{
 "C01": [
  "proved",
  "Byte-level model of convert.go; all byte strings."
 ],
 "C02": [
  "proved",
  ""
 ],
 "C03": [
  "proved",
  ""
 ],
 "C04": [
  "proved",
  "For record sizes 25..65559 (others are refused by the code or make it panic)."
 ],
 "C05": [
  "proved",
  "Real CRC-32C; every single-byte change outside the two length bytes."
 ],
 "C06": [
  "proved",
  ""
 ],
 "C07": [
  "proved",
  "Encodings shorter than 2^62 bytes; nil and empty slices identified."
 ],
 "C08": [
  "partial",
  "The full statement is refuted (a length varint that overflows int makes both decoders panic); proved: termination on all inputs and no panic without such varints."
 ],
 "C09": [
  "proved",
  ""
 ],
 "C10": [
  "proved",
  ""
 ],
 "C11": [
  "proved",
  ""
 ],
 "C12": [
  "partial",
  "Proved: every query answers exactly the retained acknowledged values before its bound, in strictly decreasing order, unless no value of the newest file is before the bound (then it answers nothing: C23_refuted). Queries with a bound after the newest value are exact, and nothing is dropped with files=0. Scope: values that fit an empty file, non-zero end times (see C13_refuted). Also for values of any size when no handles are cached (C12_any_size_partial)."
 ],
 "C13": [
  "partial",
  "Refuted in full: after a rejected too-large write an acknowledged write is lost. Proved for histories of values that fit, end < MaxInt64. Proved for values of any size when no handles are cached (handles = 0)."
 ],
 "C14": [
  "proved",
  "Including histories with rejected too large values when no handles are cached."
 ],
 "C15": [
  "partial",
  "Refuted in full (too-large values). Proved for histories of values that fit: answers identical for all capacities and random streams."
 ],
 "C16": [
  "proved",
  "Files counted on the modelled disk; bytes below size*(cap+1)*(files+1). Lower bound: the newest values needing at most files*(cap-r+1)+1 records are always kept."
 ],
 "C17": [
  "partial",
  "Refuted in full: a failing write can remove the oldest file. Proved for values that fit. For any size with handles = 0: other metrics unchanged, at most the oldest values of the same metric lost, nothing lost when files are unlimited."
 ],
 "C18": [
  "partial",
  "Refuted in full: head off by one in metric.go:255 (capacity 1 never accepts a second value). Proved: the only rejected fitting values are those of that case; too large values are rejected."
 ],
 "C19": [
  "proved",
  "Values returned by any query; the status may change from error to empty when a directory is created (C19_status_change)."
 ],
 "C22": [
  "partial",
  "Refuted: a query of an intermediate directory creates a data file. Proved: no effect otherwise, in any state."
 ],
 "C23": [
  "partial",
  "Refuted: SmallestEnd >= end stops the whole read. Proved exact when the retained values are in one file."
 ],
 "C24": [
  "proved",
  "File cache operations in any order; handles numbered as opened; Close calls logged."
 ],
 "C25": [
  "proved",
  "Every schedule of any number of goroutines; the sections of the pool mutex are atomic steps."
 ],
 "C26": [
  "proved",
  "Every schedule of any number of Queue and Run calls and workers; callbacks non-nil and not panicking; launcher by its contract (C28)."
 ],
 "C27": [
  "proved",
  ""
 ],
 "C28": [
  "proved",
  "Order of completion = order in which results are delivered."
 ],
 "C33": [
  "proved",
  ""
 ],
 "C34": [
  "proved",
  "Including the exact period 2^64 of the state."
 ],
 "C29": [
  "proved",
  ""
 ],
 "C30": [
  "partial",
  "Refuted in full: overlapping Metrics calls, or PopulateMetrics overlapping a write and a Metrics call, lose acknowledged names for good. Proved: one Metrics/PopulateMetrics caller at a time with any number of concurrent workers. Also shown: Metrics can mutate the published set in place (data race)."
 ],
 "C31": [
  "proved",
  "System calls that fail only with ENOTDIR, context not cancelled."
 ],
 "C32": [
  "partial",
  "Refuted for arbitrary bytes (record length 0: endless loop, 18: panic). Proved: exact for every sequence of well-formed entries; progress for every other buffer."
 ],
 "C20": [
  "partial",
  "Refuted in full by four concrete crash states (torn metadata, crash in createFile, oldest file dropped before the new value is stored, checksum collision). Proved for every history, value and crash point (any subset of the bytes of the store in progress) except those inside createFile and the metadata, when half stored records do not collide."
 ],
 "C21": [
  "partial",
  "Refuted in full by six concrete crash states (also: a torn record blocks all writes, leftovers hide an acknowledged value, SmallestEnd of the next value, an unlinked file whose handle stays in the cache). Proved: after clean crashes the database equals the specification machine on every later history."
 ],
 "C35": [
  "partial",
  "Exact for every history when the distribution parameters can make a sketch and no callback stops a capture (a stopped capture still delivers only exact records). Refuted otherwise: with unusable parameters (compression 0) Observe returns with the mutex held and later Adds and Captures hang; records not visited by a stopped capture are dropped."
 ],
 "C36": [
  "partial",
  "Sequential use proved in full. Concurrent use: counts, sketch contents and ids always exact, min/max exact once the first observation completed before the others start; refuted in general (two first observers: reported minimum 5 although 3 was observed; a capture between the two sections reports min = max = 0)."
 ],
 "C37": [
  "proved",
  "For every order of callbacks and every mix of results; cancelled dumps and buffer ownership included. The database is assumed to call each callback exactly once (C26)."
 ],
 "C51": [
  "partial",
  "At most once delivery and right metric proved for every schedule. Refuted: Capture overlapping the first Add of a metric panics on a nil distribution; values can be lost (documented in the code)."
 ],
 "C38": [
  "partial",
  "Acceptance, times, counts, extremes and merge counts proved for every list (non-NaN extremes, totals within int64). The id of an extreme is right unless the first record holds the extreme; then it is dropped (refuted)."
 ],
 "C39": [
  "partial",
  "Exact for every width, window of at least 1ns per pixel and newest-first list of records that end before now and within the window. Refuted otherwise: a record that ended before the window (the server pushes one) is drawn in pixel 0; a window shorter than the width panics; a record ending at now is drawn off the canvas."
 ],
 "C40": [
  "partial",
  "Exact for patterns that do not end in *; a final * needs at least one character (proved equal to a final ?), so the full property is refuted: abc* does not match abc."
 ],
 "C43": [
  "partial",
  "Access control and methods proved for every configuration, request and environment. Unknown paths are 404 only without a static handler; with one (always the case in `rothko run`) the static handler answers (refuted)."
 ],
 "C52": [
  "partial",
  "Proved for a non-negative number of results; a negative number panics the handler (refuted)."
 ],
 "C53": [
  "partial",
  "JSON answer proved to carry exactly the columns of C39 for the records from the newest to the first that ended before the window. Refuted: a metric without data is a 500; a record with merge count 0 (or no duration) makes the answer a 500."
 ],
 "C44": [
  "proved",
  "strconv.ParseFloat is a black box. NaN and infinities parse but do not count as observations. The timestamp field is ignored by the code."
 ],
 "C54": [
  "proved",
  "The 64 KiB limit of bufio.Scanner is part of the statement: a longer line ends the connection and loses the rest of it (C54_long_line). Reads that fail midway are not modelled."
 ],
 "C45": [
  "partial",
  "Proved for every image and every view of an image. A view of a view replaces the offsets instead of adding them (C45_nested_view_refuted). Go ints are unbounded in this model (4*w*h is the size of an existing slice)."
 ],
 "C46": [
  "partial",
  "CDF proved for a digest that does not change after the first CDF call; an Observe after a CDF leaves stale memoized quantiles (C46_stale_refuted). Query is exact in every history. The t-digest library is a black box."
 ],
 "C55": [
  "partial",
  "Sizes up to 2^24. When r(n-1)/(h-1) is an integer the code may show the point below it, so the top row need not show the last point (C55_top_row_refuted); a canvas one pixel high panics (C55_one_row_refuted); a column wider than the image wraps into the next rows (C55_wide_column_refuted); on a canvas that is not an RGB the picture is upside down (C55_other_canvas_refuted). Uses the axioms of the standard library's reals (through Flocq)."
 ],
 "C56": [
  "partial",
  "Same rounding defect as C55: C56_top_row_refuted, C56_one_row_refuted. Uses the axioms of the standard library's reals (through Flocq)."
 ],
 "C57": [
  "proved",
  "Rates must be finite and the largest positive (with only zero rates the ratio is NaN and the conversion to byte is left to the platform). The text label is not modelled. Uses the axioms of the standard library's reals (through Flocq)."
 ],
 "C47": [
  "proved",
  "toml decoding (incl. the duration text) is a parameter; Go map order arbitrary. Also proved: start-up logs do not depend on the api secrets; the database/listener configurations are logged unredacted (C47_database_config_logged)."
 ],
 "C48": [
  "proved",
  "For makers that return without calling the registry; a maker that does deadlocks the registry (C48_reentrant_maker_refuted)."
 ],
 "C49": [
  "proved",
  "For non-negative list indexes; a negative index panics (C49_negative_index_refuted). Includes exact acceptance of the three built-in component configurations."
 ],
 "C50": [
  "partial",
  "Refuted: Readdir keeps the prefix instead of the rest of the listing. Proved: number of entries and end of file right for all positive counts; the listing is right iff the first call takes the whole directory."
 ],
 "C58": [
  "partial",
  "Makers that return without calling the registry. C58_negative_refuted: an accepted document whose files database has a negative buffer or number of workers does not start nor is it refused: files.New panics. C58_no_duration_refuted: an accepted document without a duration makes the dumper panic after start."
 ],
 "C59": [
  "proved",
  "path.Clean by its documented result on components; gzip/tar decoding is the standard library's. Directories that have no entry of their own have a nil FileInfo (C59_implicit_directory)."
 ],
 "C60": [
  "proved",
  "Components are black boxes; a periodic dump is one step. When a service fails there is no last dump (C60_service_error_loses_refuted)."
 ],
 "C61": [
  "proved",
  "Specification in WireSpec.v (independent of the decoders)."
 ],
 "C62": [
  "proved",
  "Atomic actions are cache critical sections, system calls and one load or store per mapped file; the calls write values that fit an empty file (C62_linearizable) or, without kept handles, values of any size (C62_any_size_linearizable)."
 ],
 "C63": [
  "proved",
  "For records that ended before now and within the window (as C39). A merge count of 0 or a zero length gives an infinite or NaN rate: C53_rate_refuted."
 ],
 "C65": [
  "partial",
  "Selection proved in full (C65_first, C65_left_out); separation proved for vertical axes up to the base lines (C65_vertical) and for horizontal axes whose labels but the first start after the first ten pixels (C65_horizontal_partial). C65_horizontal_refuted: labels that start in the first ten pixels are never left out and are drawn over each other. C65_vertical_refuted: descents may share rows."
 ],
 "C64": [
  "proved",
  "Uses the Reals axioms (through Flocq) for the tick positions. The font is any fixed-width one; how it shades its cells is a parameter (shade)."
 ],
 "C66": [
  "partial",
  "Proved for charts that can be drawn (drawable; C66_drawable: every chart from 221x52 pixels up, with texts of the usual lengths, and columns inside the heat map). C66_narrow_refuted: a chart less than 100 pixels wide is not refused, measuring it panics (division by zero). Uses the Reals axioms (through Flocq). Texts of numbers and times and the shading of character cells are parameters."
 ],
 "C67": [
  "partial",
  "C67_before_1970_refuted: with now < 0 the newest label is past the end of the axis. Uses the Reals axioms (through Flocq)."
 ],
 "C68": [
  "partial",
  "For records that ended before now (one that ends exactly now is drawn off the heat map, C39_end_now_refuted); the first column also shows the record that ended before the window. C68_narrow_refuted: a width below 100 panics. PNG encoding is not modelled. Uses the Reals axioms (through Flocq)."
 ],
 "C69": [
  "proved",
  "Calls do not overlap (C36, C51, C62 are about overlapping ones), dump times increase, records take fewer than cap slots (`roomy`), no Queue call of a dump is refused."
 ],
 "C70": [
  "partial",
  "C70_template_error_refuted: the deferred Close is called on the nil named result, so a template that fails panics instead of being answered with an error. C70_fallback_refuted: an unknown path that is not a page is answered with the unrendered text of the index template. The template engine is a parameter."
 ],
 "C71": [
  "partial",
  "C71_unwritten_refuted: `written` is ignored, so on a database that refuses every value (newer ones are stored) success is reported. C71_drop_refuted: if Queue calls the callback before it returns (full queue with drop, or ctx done) the unbuffered send blocks for ever."
 ],
 "C72": [
  "partial",
  "All parts but the last are proved. \"A failed call has no lasting effect\" is false of the code: C72_unusable_metrics_refuse_everything (a file whose fallocate or mmap failed stays in the directory and makes every later call on the metric fail, also after restarts, until it is deleted: C72_deleting_the_file_repairs) and C72_a_failing_write_loses_values_refuted (with a file limit the oldest file is deleted before the new one is made)."
 ],
 "C73": [
  "partial",
  "Proved but for two clauses that are false of the code: C73_race_refuted (a file made by another process between Stat and WriteFile is replaced, with status 0) and C73_partial_write_refuted (a write that fails half way leaves a part of the text, which the next init refuses to replace: C73_no_repair). The initial configuration is read with the small TOML reader of TomlSpec.v; BurntSushi/toml is assumed to read that one text the same way (a hypothesis of C73_initial_runs)."
 ],
 "C74": [
  "partial",
  "Proved but for the clauses the code does not have: C74_new says exactly when New panics (negative buffer or workers), C74_documented_handles_refuted (512, not the documented 1024, are left), C74_unlimited_refuted (with RLIM_INFINITY no handle is cached)."
 ],
 "C75": [
  "partial",
  "Proved but for the last clause when the context was cancelled before a signal came: C75_after_cancel_refuted, C75_ignored_forever."
 ],
 "C76": [
  "proved",
  "The exclusions in the statement are needed: C76_newest_record_refuted (one changed byte there and the metric can never be written again), C76_metadata_refuted, C76_truncated_refuted (endless loop, panic) show what happens outside them."
 ],
 "C77": [
  "proved",
  "C77_acked_refuted, C77_torn_refuted and C77_new_file_refuted show what does not hold (last sentence of the statement). Other metrics' files may be in any state."
 ],
 "C78": [
  "proved",
  "C78_keeps_listening_refuted shows the last sentence (one failing Accept ends the listener). Bytes become lines as in C54's scanner; what a line says is a separate small relation (ListenerSpec.says)."
 ],
 "C79": [
  "proved",
  "C79_waits_for_requests_refuted and C79_early_cancel_refuted show the last sentence. net/http's Serve and Shutdown are modelled from their documentation, for versions before and after Go 1.11."
 ],
 "C80": [
  "proved",
  "C80_accept_error_loses_refuted shows the last sentence. C80_refines maps this model to the one of C60."
 ],
 "C81": [
  "proved",
  "C81_other_characters_refuted and C81_bottom_row_refuted show the last sentence. C81_draws_cells discharges the assumption about texts of C64 and C66 (C81_chart). The glyph table in Font.v is transcribed from draw/iosevka/font.go by a script; x/image's Face.Glyph, BoundString and DrawString and image/draw's mask drawing are modelled from their documented source, as they are not in /repo."
 ],
 "C82": [
  "proved",
  "C82_rate_length_refuted shows the exception for exponents of three digits. strconv's and fmt's functions are modelled from their source, as they are not in /repo (both variants of fmt's # flag: up to Go 1.13 and since). C82_short discharges C66_drawable's and C68's assumptions about the lengths of the texts. float16 is a dependency not in /repo: the rounding of a value to 16 bits before its text is part of the arbitrary function `quantile`."
 ],
 "C83": [
  "proved",
  "C83_repeated_hour_refuted and C83_year_refuted show the last but one sentence. Package time is modelled from its source (not in /repo), the zone is an arbitrary function. The specification of the calendar is its successor function (next_day) from 1 January 1970."
 ],
 "C84": [
  "proved",
  "C84_not_utf8_refuted shows the last sentence. The text of a float64 is a parameter required to be a JSON number (C86_json and C86_graph put in the encoder's); encoding/json, base64 and utf8 are modelled from their source (not in /repo). The reader (JsonSpec.v) is a recursive descent reader of RFC 8259."
 ],
 "C85": [
  "proved",
  "strconv.ParseFloat is Go's, not in /repo: Number.v is its syntax with one correctly rounded division, not its algorithm. Exponents written with an absolute value of 100000 or more are cut to their first five digits there; the theorems leave them out, C85_long_exponent_refuted shows why: such a number after ten thousand zeros is misread."
 ],
 "C86": [
  "proved",
  "encoding/json's floatEncoder is modelled from its source; strconv's shortest digits are Go's, not in /repo: FloatText.v finds them by reading back (the first number of digits at which rounding the exact value down or up reads back, the nearer if both do), not by strconv's algorithm."
 ],
 "C87": [
  "proved",
  "time.ParseDuration and Duration.String are modelled from their source (Go 1.11, not in /repo). C87_longest_refuted and C87_zeros_refuted show the two exceptions of the last sentence; fractions with more than 22 digits are covered by the syntax theorem only."
 ],
 "C88": [
  "proved",
  "C88_four_bits_refuted and C88_length_bit_refuted are the boundary named in the last sentence: four flipped bits and one flipped length bit that are accepted."
 ],
 "C89": [
  "proved",
  "The last sentence of the statement is the boundary: C89_damaged_file_refuted, C89_small_records_refuted and C89_errors_lost_refuted are defects of the code (file.go:67-72 and 115-122 return without unmapping; mmap.go wraps the wrong error)."
 ],
 "C90": [
  "proved",
  "Histories of values that fit an empty file, as in C12. The layout of the metadata record is C06's."
 ],
 "C91": [
  "proved",
  "The t-digest library is a parameter (which bytes it reads). C91_plugin_refuted: a process can start with a plugin's distribution and store records it cannot load: when its maker refuses to work without configuration, or is registered under a name that is not its Kind; and a plugin that replaces \"tdigest\" can make all older records unreadable."
 ],
 "C92": [
  "proved",
  "Of the environment only Go's types are assumed (bytes, int64s). Columns of 2^63 pixels are excluded. The nonce and pictures are not JSON; errors are plain text (C43)."
 ],
 "C93": [
  "proved",
  "Exact count needs usable files (every history of a database gives them, C89_database) and munmap to work; C93_usable assumes nothing about the calls. Operations are the critical sections of the cache with the opening and closing of the handle they concern (as in C24)."
 ]
}