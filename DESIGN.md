# Formal model of vivint/rothko in Rocq (Coq 8.16.1)

## Layout

* `rocq/theories/*.v` — `X.v` are models (total, computable Gallina, each
  definition cites the Go lines), `XSpec.v` small independent specifications,
  `XProofs.v` proofs, `Props_*.v` the property theorems with their
  non-vacuity examples and `Print Assumptions`.
* `properties.jsonl`, `MANIFEST.json`, `seeded/LOG.jsonl` as the task asks.

## Conventions

* A byte is a `Z` with `0 <= b < 256`; a Go `string`/`[]byte` is `list Z`.
  Go `int`/`int64` are `Z`; where Go wraps and the wrap is reachable, the model
  wraps explicitly (`wrap64`, `u32`, ...); otherwise range hypotheses are stated.
* Panics, errors and "does not terminate" are explicit outcomes.
* Concurrent code (lock pool, queue, metrics cache, launcher, aggregate) is
  modelled as a small-step transition system whose steps are the atomic
  actions of the code; theorems quantify over every reachable state, i.e. over
  every schedule and any number of goroutines.
* Crash: a process crash leaves an arbitrary prefix of the byte stores the code
  performs on the shared mappings (program order), as stores to a shared
  mapping survive the death of the process. Power failure (arbitrary subsets of
  pages) is not modelled.
* When the code does not have the property, the file proves `..._refuted`
  (a concrete run of the model on which the property fails) and, where
  possible, the strongest true variant as `..._partial`.

## Plan per property

| id | model | proof |
|----|-------|-------|
| C01, C02 | `Convert.v`: both loops as folds over bytes | invariant relating loop state to the text already emitted; injectivity from the round trip |
| C03, C04, C05 | `Record.v`, `Crc.v`: byte exact header, real CRC-32C | big endian lemmas; induction on the data; CRC is linear/bijective in each single byte |
| C06 | `Meta.v`: varint codec | induction on the varint, fuel discharged |
| C07, C08 | `PbRecord.v`: generated codec incl. skip and bounds checks, panics explicit | as C06; refutation by a 10-byte length |
| C09, C10, C11 | `File.v`: mapping = byte list, slots = sublists | arithmetic with wrapping int32; list lemmas; induction along the walk |
| C12–C19, C22, C23 | `Metric.v`: `newMetric`, `acquireLast`, `Write`, `Read`, `ReadLast` over inodes, directory entries and the handle cache, byte level | representation invariant, refinement to a list-of-values specification, induction over histories; refutations by evaluation |
| C20, C21 | `Crash.v`: the store sequence of a write | every prefix of the stores keeps the representation of older values; no-collision hypothesis for half-written records is explicit |
| C24, C15, C33, C34 | `Cache.v`, `Pcg.v` | invariant of order/handles; conservation of handles |
| C25 | `LockPool.v` transition system | inductive invariant over arbitrary thread pools |
| C26, C27, C28 | `Queue.v`, `Launcher.v` transition systems | inductive invariants (token accounting) |
| C29–C31 | `Sset.v`, `Names.v` | binary search correctness, union lemmas; races by explicit schedules |
| C32 | `Dirent.v` | induction over entries |
| C35–C37 | `Writer.v`, `Agg.v`, `Dump.v` | induction over operations; race by explicit schedule |
| C51 | `WriterConc.v`: pages, atomic dequeue/observe/capture steps | invariants over schedules; refutation by an explicit schedule |
| C38, C39, C63 | `Merge.v` (records, resampling, merger; float64 by `Float.v`) | fold invariants; C63: accumulated relative rounding error over the reals (`RateProofs.v`) |
| C40–C42 | `Query.v`, `QuerySpec.v` | inductive matching relation; refutation |
| C43, C52, C53 | `Server.v` | case analysis over all requests and environments |
| C44, C54 | `Graphite.v` | induction over the bytes of a connection |
| C45, C55, C56, C57 | `Draw.v` (canvas, heat map, key, observation bar) | index arithmetic; float index = real quotient via Flocq (`FloatReal.v`, `DrawFloat.v`) |
| C46 | `Cdf.v` | bisection over dyadics |
| C47–C50, C58, C59 | `Config.v`, `Run.v`, `Registry.v`, `Typeassert.v`, `Tgzfs.v`; the words users write: `Props_Keys.v` | induction over documents, mutex states, key paths, archives |
| C60 | `Shutdown.v`: run.go's services, dumper and last dump | invariants over every interleaving of signals, failures and adds |
| C61 | `WireSpec.v`: protobuf wire format, independent of the decoders | decoders accept exactly the messages of the specification |
| C62 | `Conc.v`: many goroutines calling Run/Query/QueryLatest; steps = cache sections, system calls, one load/store per mapped file | invariant + simulation; linearization points at the lock of each metric |
| C64, C65 | `Axis.v` (measuring and drawing axes; the font is any fixed-width one) | tick pixel = real product via Flocq (`AxisFloat.v`); the drawing loops by induction over labels; the picture as a function of the pixel (`AxisSpec.v`) |
| C66, C67 | `Graph.v` (layout of a chart, labels, drawing) | composition of C45, C55, C56, C57, C64; label times by integer arithmetic, their positions via Flocq (`GraphFloat.v`) |
| C68 | `Render.v` (serveRender's image; the viridis table) | composition of C39, C53 and C66 |
| C69 | `Pipeline.v` (the processes' parts one after the other; run.go:188-210) over `Graphite.v`, `Writer.v`, `Dump.v`, `DbSpec.v`'s calls | composition of C54, C35, C37, C07, C18, C12, C13; spec `PipelineSpec.v` (`told`: periods from the events alone) |
| C70 | `Site.v` (tmplfs, handles of tgzfs, net/http's FileServer and path.Clean, the warning of a build without ui) over `Tgzfs.v`, `Server.v` | composition of C50/C59 with cleaning of paths; induction over path components |
| C71 | `Demo.v` (addDemoData; random values are an input) | loop invariant for the queue calls; then C37/C12/C13 for what a query answers |
| C72 | `Fault.v`: the functions of `Metric.v` with an answer (works or fails) for every system call | one call refines the specification machine of C12 up to a lost oldest file and one half made file (FaultProofs, FaultSim); the half made files commute with every call on other metrics (FaultJunk) and make every call on their metric fail (FaultBroken); induction over histories (FaultRun) |
| C73 | `Cli.v` (actions of init, run, demo and the status), `InitialConfig.v` (the text), `TomlSpec.v` (a small reader of TOML for it) | case analysis over the outcomes of the calls; the initial text is evaluated through the model of start-up (C58) |
| C74 | `NewDb.v` (the defaults in files.New) | arithmetic; gives `process_ok`, the hypothesis of the history theorems |
| C75 | `Signal.v`: WithSignal's goroutine, channel, registration as a transition system | invariant over all reachable states |
| C76 | `DamageSpec.v`: contents of files changed between two calls (each record reads as before or does not parse, metadata intact, newest record intact); the model of C10-C18 continues on it | the invariant of MetricProofs/MetricRead once more for any representation of files (`DamageInv.v`, `repr_ok`), instantiated with exact files and with damaged ones (`DamageRepr.v`: head walk, reading over holes, writing to twins), then histories (`DamageDb.v`, `DamageProof.v`); single bytes with C05 (`DamageByte.v`) |
| C77 | `PowerSpec.v`: contents of files after a power failure, each record and the metadata on its own as at some moment between two states of a history, or torn | metrics only grow (`run_grown`), so a record present at the sync has the same bytes at all later moments; head walk and reading over stale and torn slots (`PowerFile.v`, using `DamageFile.v`); reading with only the answers of the files known (`PowerDb.v`) |
| C78 | `Listener.v`: main, accepting and reading goroutines, bytes, cancellation as a transition system; spec `ListenerSpec.v` | inductive invariant relating every connection's bytes to its handed-over lines (ListenerProofs); a weight that falls with every own step after the cancellation |
| C79 | `Serve.v`: runServer's two goroutines with net/http's Serve and Shutdown, connections idle or busy | invariant and weight over all reachable states |
| C80 | `Process.v`: `Listener.v`'s listeners and `Serve.v`'s api inside the launcher of `Shutdown.v`, with the dumps | invariant; simulation into C60's model; weights of C78 and C79 added up |
| C81 | `Font.v`: the glyph table, basicfont's Glyph, font.BoundString/DrawString, image/draw's DrawMask for RGBA; spec `FontSpec.v` | induction on the text with a per-pixel invariant (FontProofs); finite table facts by computation in the kernel; then C64/C66's parameter is discharged |
| C82 | `Format.v`: strconv's decimal arithmetic (exact digits, rounding), %e, %f, %g, and fmt's # flag; spec `FormatSpec.v`: a reader of decimal numbers, and Flocq's rounding in radix 10 | the digits' value is the float's exactly; rounding up or down is ZnearestE of the scaled value (FormatProofs); each form read back gives the digits' value; then Flocq's error and monotonicity lemmas |
| C83 | `Times.v`: time.Unix, absDate (cycles of 400, 100, 4 and 1 years, the month table), absClock, appendInt; spec `TimesSpec.v`: the calendar by its successor function | a closed form (day_number) that increases by one with next_day and is injective on dates; the cycles by linear arithmetic, the days of a year by a finite check (TimesProofs) |
| C84 | `Json.v`: encoding/json's string loop with utf8.DecodeRune, arrays, objects, base64; spec `JsonSpec.v`: UTF-8 and a reader of RFC 8259 on characters | the loop by characters (rune_cases: a character or none), then the reader on the text of any tree by induction on the tree (JsonProofs, JsonTree) |
| C85 | `Number.v`: strconv.ParseFloat (syntax, exponent cut, one rounded division) put in for the parameter of `Graphite.v`; spec `NumberSpec.v`: decimal numerals, their real value, the nearest float64 among all float64s | the grammar both ways (NumberProofs); Flocq's division theorem on the quotient of two integers, the halfway point above the greatest float (NumberReal); composed with C44 |
| C86 | `FloatText.v`: floatEncoder of encoding/json over the shortest decimal that reads back (rounding functions of `Format.v`, reader of `Number.v`), put in for the parameter of `Json.v` | the rounded digits enclose the float64 and rounding is monotone, so what reads back lies no further (FloatTextProofs, FloatTextClose); the texts are numerals and JSON numbers (FloatTextRead); composed with C84 |
| C87 | `Duration.v`: time.ParseDuration and Duration.String (Go 1.11), float products in `SpecFloat`; spec `DurationSpec.v`: the grammar and the real sum of the parts | the float quotient is whole when the fraction is short, otherwise four relative errors (DurationFloat, over Flocq); grammar both ways (DurationProofs), the sum (DurationValue), the printer writes short parts (DurationText) |
| C88 | `Crc.v`, `Record.v` (as C03, C04); spec `FlipSpec.v`: flipped bits counted, bursts; damage of the database as in C76 | the checksum is a linear function of the bits (CrcBits), each step keeps their parity (the polynomial has a factor x+1), two bits: the order of x is exactly 2^31-1, a prime, by repeated squaring and a bezout argument (CrcOrder), bursts: 32 steps are a bijection (CrcFlip); the database by C76 (DamageRec) |
| C89 | `Sys.v`: the kernel's table of descriptors and mappings, each system call of file.go with an arbitrary pattern of failures | invariant over runs: no descriptor, the mappings of held files are in the table and distinct; with readable files the table is exactly theirs; the database's files are readable by C01's representation (DbProofs) |
| C90 | `Crc.v`, `Record.v`, `File.v`, `Metric.v`; spec `StoredSpec.v`: layout of a record and of a data file, the checksum as remainder of a division in GF(2)[x] (numbers, xor, carry-less product) | the register of the computation read backwards is the remainder so far (induction over the bits, `division`); the remainder is unique; the invariant of the history theorems (DbProofs) gives every slot, C90_read turns 'it parses' into 'it has the format' |
| C91 | `LoadDist.v` (data/load/load.go over `Registry`, `Run`, `Typeassert`) | C48 gives the maker in force; the registry is unchanged by constructions whose makers return; composition with C35 (captured records) and C07 (encoding) |
| C92 | `Server.v`, `Merge.v`, `Json.v`, `FloatText.v` | invariant of the merger for any pushes: columns lie in [0, 2^63) and their rates are float64s (SpecFloat operations agree with Flocq's, whose results are valid); then C84_graph, C84_names and C86_graph |
| C93 | `CachedFiles.v` (`FileCache.v` over `Sys.v`) | invariant: the process is one of C89's runs, its files are one to one the handles that are kept or handed out (C24); so C89_no_leak and C89_mapped_until_closed count and find their mappings |

## What is modelled, and how far

| code | model | left out or simplified |
|------|-------|------------------------|
| database/files/convert.go, record.go, file.go, file_helpers.go, internal/meta | `Convert`, `Record`, `Crc`, `Meta`, `Pb`, `File` | byte exact. mmap is a byte list; msync/madvise are no-ops (`Sys` has the system calls themselves: descriptors, mappings, failures of open, fstat, fallocate, mmap, munmap and msync); `unsafe` pointer arithmetic is list slicing with the code's own bounds checks |
| database/files/metric.go, cache.go, file_cache.go, file_ops.go | `Metric`, `Cache`, `FileCache` | inodes, directory entries and open handles are explicit; system calls do not fail (disk full, EMFILE, EIO) in these files; `Fault` models the same functions with failing calls (C72; a failing munmap, msync or close and SIGBUS are not modelled) |
| database/files/db.go, db_write.go, db_read.go, lock_pool.go | `DbSpec` .. `DbRetain`, `RejectSpec`, `Queue`, `LockPool`, `Launcher`, `Names`, `Populate`, `Conc` | the sequential `db_run` serves the history theorems, the transition systems `Queue`, `LockPool`, `Names` and `Conc` the concurrent ones; logging and monkit are omitted |
| crashes in the database | `Crash*` | process crash only: every prefix of the stores, any subset of the bytes of the store in progress; power failures: `Power*` (C77) |
| internal/pcg, internal/sset, internal/junk/launcher.go, internal/system/dirent.go | `Pcg` (in `Cache.v`), `Sset`, `Launcher`, `Populate` | exact (64-bit wrap around explicit) |
| data/agg.go, writer.go, record.pb.go | `Agg`, `Writer`, `WriterConc`, `PbRecord` | t-digest is a black box with Observe; sync.Pool and atomic pages are atomic steps; time is an input |
| dump/dump.go | `Dump` | the database is any party calling each callback once |
| merge/*.go | `Merge` | the t-digest merge is a black box; int64 wrap around is excluded by range hypotheses |
| api/server.go, api/query | `Server`, `Query`, `Json` | net/http request parsing and PNG encoding are black boxes (the model produces the image); JSON text is `Json` (C84), with the texts of floats in `FloatText` (C86); UTF-8 decoding and white space are modelled |
| listener/graphite | `Graphite`, `Listener` | strconv.ParseFloat is a parameter of `Graphite` (`Number` is put in for it, C85); in `Graphite` net errors are omitted, in `Listener` accept and read errors are steps |
| draw/common.go, heatmap, key, observations, colors, graph, axis, iosevka | `Draw`, `Graph`, `Axis`, `Render`, `Font`, `Format`, `Times` | the rounding of values to 16 bits (float16) is a parameter; strconv, fmt and time formatting, x/image's font packages and image/draw's mask drawing are modelled from their source, not in /repo |
| dist/tdigest/wrapper.go | `Cdf` | the t-digest library is a parameter |
| config, run.go, registry, internal/typeassert, data/load | `Config`, `Run`, `Shutdown`, `Serve`, `Process`, `Registry`, `Typeassert`, `Load` | TOML decoding is a parameter; Go's map order is universally quantified; net/http's Serve/Shutdown from their documentation |
| internal/tmplfs, api (static half), ui | `Site` | html/template is a parameter; of net/http's FileServer: cleaning, redirects, index.html, 404/500; no ranges or conditional requests |
| demo.go | `Demo` | random values and the order of the map are inputs |
| internal/tgzfs | `Tgzfs` | gzip and tar readers are the standard library's; the model starts from the list of entries |
| main.go, init.go, run.go/demo.go actions, utils.go | `Cli`, `InitialConfig`, `TomlSpec` | the command line library, texts of errors and help are left out; ioutil.WriteFile may fail before or after truncating |
| internal/junk/signal.go | `Signal` | one kind of signal, SIGINT |
| database/files/db.go New | `NewDb` | 64-bit platforms; sizes too large to allocate are left out |

Not modelled: ui/ (embedded bytes),
internal/junk/flag.go and tabwriter.go, external/resources.go (logging and
metrics hooks), the darwin variants of internal/system.

## Floating point

`Float.v` gives a float64 by its 64 bits and computes with the standard library's
`SpecFloat` (IEEE 754 binary64, round to nearest even), so that every model stays
executable without primitive floats. Only the theorems that compare a computed float with a real
number (C55, C56, C57, C63 to C68, C81 to C83, C85 to C87, C92) use Flocq, through `FloatReal.v`, and thereby the axioms of
the standard library's reals.

## Mutation testing

`tools/mut.py` takes a list of textual edits of model files, applies each in a scratch
copy, rebuilds what depends on the file while admitting failing lemmas so that every
theorem is tried, and reports the theorems whose proofs fail (`tools/log.py` appends to
`seeded/LOG.jsonl`). Edits that no theorem noticed led to a tightened or new theorem, or
are noted as harmless in the log.

## Trusted base

* Coq 8.16.1's kernel, including its virtual machine (`vm_compute` is used in examples,
  refutations and finite tables).
* The correspondence of the model to the Go text (by reading; every definition cites its
  lines), with the simplifications above and those in the comments.
* Axioms: `Print Assumptions` of every theorem is in the `Props_*.v` files. It reads "Closed
  under the global context" for all of them except those listed below, which use, through
  Flocq and the standard library's `Reals`: `ClassicalDedekindReals.sig_not_dec`,
  `ClassicalDedekindReals.sig_forall_dec`, `FunctionalExtensionality.functional_extensionality_dep`
  and `Classical_Prop.classic`.

  `C55_column_partial`, `C55_top_row_refuted`, `C55_wide_column`, `C55_other_canvas_partial`,
  `C56_key_partial`, `C57_grey`, `C63_rate`, `C64_vertical`, `C64_horizontal`, `C64_new_picture`,
  `C64_vertical_size`, `C64_horizontal_size`, `C65_horizontal_refuted`, `C65_vertical_refuted`,
  `C66_picture`, `C66_new_canvas`, `C66_regions`, `C66_quantiles`, `C66_drawable`,
  `C66_quantile_row`, `C67_times`, `C67_pixels`, `C68_picture`, `C68_heatmap`,
  `C81_vertical_labels`, `C81_horizontal_labels`, `C81_bottom_row_refuted`, `C81_chart`,
  `C81_chart_new`, `C82_fixed`, `C82_significant`, `C82_nearest`, `C82_error`, `C82_order`,
  `C82_three_digits`, `C82_characters`, `C82_length`, `C82_left_axis`, `C82_right_axis`,
  `C82_rate`, `C82_rate_length`, `C82_short`, `C83_axis`, `C83_texts`, `C83_chart`, `C85_number`,
  `C85_words`, `C85_exact`, `C85_whole`, `C85_order`, `C85_line`, `C85_long_exponent_refuted`,
  `C86_nearest`, `C86_reads_back`, `C86_json`, `C86_shortest`, `C86_exponent`, `C86_graph`,
  `C87_exact`, `C87_close`, `C87_text`, `C87_query`, `C87_zeros_refuted`, `C92_answers` (regenerate with `tools/axioms.py`).

* `coqchk` also lists seven `Coq.ssr.ssrunder.*` parameters and the `Reals` axioms for some modules
  that merely load those libraries; no theorem depends on the former.

## Where the code does not have the property

Each of these is a theorem about a concrete run (`..._refuted`):

* C08: a length varint that overflows int makes both protobuf decoders panic.
* C13, C15: after a rejected too large value the cached handle's head is wrong and a later acknowledged write is lost.
* C17: a failing write can remove the oldest data file. C18: metric.go:255 is off by one: a file of capacity 1 never takes a second value.
* C20, C21: crash states in createFile, in the metadata, between dropping the oldest file and storing the value; a torn record can block all later writes; stale handle in `acquireLast`.
* C22: a query for an intermediate directory creates a data file. C23: `SmallestEnd >= end` stops the whole read.
* C30: overlapping Metrics/PopulateMetrics calls lose names. C32: malformed directory entries loop or panic.
* C35, C36, C51: unusable distribution parameters leave the mutex held; two first observers race on min/max; Capture overlapping the first Add panics.
* C38: the id of an extreme held by the first record is dropped. C39: a record older than the window is drawn in pixel 0; windows shorter than the width panic; a record ending now is drawn off the canvas.
* C40: a final `*` needs at least one character. C43: unknown API paths are answered by the static handler. C52: a negative number of results panics. C53: a metric without data is a 500; a merge count of 0 makes the JSON answer a 500.
* C45: a view of a view replaces its offsets. C55, C56: the top row need not show the last datum; a canvas one pixel high panics; a column past the right edge wraps into the next rows; on a canvas other than RGB the heat map is upside down.
* C65: labels of a horizontal axis that start in its first ten pixels are never left out and are drawn over each other; descents of vertical labels may share a row. C66: a chart less than 100 pixels wide panics (division by zero); one between 34 and 49 pixels high is refused even if it needs no more; a rate text over 17 characters is cut off. C67: before 1970 the newest time label is past the end of the axis. C68: a render request with a width below 100 panics.
* C46: quantiles memoized before an Observe are stale. C48: a maker that uses the registry deadlocks. C49: a negative index panics. C50: Readdir keeps the prefix of the listing instead of the rest.
* C70: a template that fails makes the handler panic (Close of a nil file); unknown paths get the unrendered index template. C71: the demo reports success although every value was refused, and hangs when Queue calls back at once.
* C72: createFile failing in fallocate or mmap (disk full) leaves an empty or zeroed N.data file; from then on every read and write of the metric fails, also of its old data and after restarts, until the file is deleted. With a file limit a Write that cannot create the new file has already deleted the oldest one. A failing os.Remove is ignored (one more file is kept).
* C73: init tests for the file and writes it in two steps, so a file made in between is replaced; a write that fails half way leaves a part of the text and the next init refuses. A document with two databases is reported as an unexpected error, not as an invalid configuration.
* C74: the documentation says the default number of handles is 1024 below the limit, the code uses 512; with RLIM_INFINITY the difference is negative and the cache keeps no handle; New panics on a negative buffer or number of workers.
* C75: after a cancel before any signal, WithSignal leaves its channel registered: later SIGINTs are swallowed while the database finishes.
* C76: one changed byte in the newest record of a metric makes every later Write to it fail, also after restarts (write reads the newest record first and gives up); one in the metadata of an old file hides the whole file and everything older behind an error. A data file cut off below its head pointer makes getHeadPointer count up to 2^63 (the call never returns and holds the lock); one shorter than a record panics. openFile and createFile leak the mapping when the metadata cannot be read or written. Nothing calls msync or fsync.
* C77: FullSync and FullAsync (file.go:195-203) have no callers: nothing in the program makes data reach the disk, an acknowledged Write survives a crash of the process (C20) but not of the machine. A torn newest record makes every later Write to the metric fail; a new file whose contents did not reach the disk hides all older files behind an error.
* C78: one failing Accept (EMFILE; the database reserves all but 512 descriptors) ends a graphite listener with an error, and with it the process; temporary errors are not retried.
* C79: Serve returns as soon as Shutdown begins, so run goes on without waiting for requests in progress; the minute given to Shutdown is not used. With Go up to 1.10 a cancel before Serve leaves the server running.
* C80: after such a failing Accept there is no last dump; the lines since the previous dump are lost.
* C81: characters without a glyph (anything but printable ASCII and carriage return) are skipped when drawn though measured; the lowest left-axis label of every chart ("0.00" at position 1) loses the lowest row of its digits, because Measure counts 11 rows below the tick and the cell is 14 high with digits down to row 11.
* C82: the place for the label over the rates is that of `obs/sec: 0.00e-00`; a rate of 1e100 or more (or below 1e-99) needs one character more and is cut off at the right edge if the maximum is there.
* C83: labels of times do not show the year or the zone, so they are ambiguous on charts of more than a year and in the hour that is repeated when clocks are set back; the steps are multiples of hours of UTC, so days are not divided at local midnight.
* C84: metric names are any bytes (a graphite line is not checked), but search results replace what is not UTF-8 by U+FFFD, so metrics with such names are listed under names that do not exist, several of them under the same one.
* C85: a line with an infinity or NaN as its value is accepted without an error and records nothing (writer.go:51-53 drops it); strconv cuts exponents of six digits and more.
* C87: the text of the duration -2^63 ns is refused by ParseDuration, and `0.95600000000000us` is 955 ns although
  `0.956us` is 956 ns (standard library; no one writes such configurations).
* C88: the checksum does not protect the length it depends on: one flipped bit of the two length bytes can turn a
  record into a shorter one with a valid checksum (C88_length_bit_refuted); the value is then reported cut off.
* C89: openFile returns without unmapping when the first record is damaged (file.go:115-122), so every Write or Query
  that meets such a file leaks a mapping, until vm.max_map_count (C89_damaged_file_refuted); createFile does so for
  records too small for the metadata (67-72). Munmap and Msync wrap the nil result instead of the error code, so
  neither Close nor FullSync ever reports an error (C89_errors_lost_refuted).
* C91: the kind in a record is Params.Kind, the one in the configuration is the name of
  the registration, and data/load makes distributions without configuration: with plugins
  where these differ, or whose maker needs a configuration, a process starts and stores
  records that no query can show (C91_plugin_refuted).
* C58: a negative buffer or number of workers panics; an accepted document without a duration panics after start. C60: when a service fails there is no last dump.
