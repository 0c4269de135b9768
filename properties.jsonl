{"id": "C01", "title": "Metric names survive the trip through the directory tree", "statement": "Converting a metric name to its on-disk directory and back yields exactly the original name, so two different metric names never share a directory.", "quantifier": "every byte string as metric name (and every pair of names)", "why_tests_cant": "the name space is infinite and the encoder has group-of-dots and trailing-dots special cases that interact; a table of examples cannot cover all interleavings of '.', '/' and '%'", "anchors": ["database/files/convert.go: metricToDir, dirToMetric"]}
{"id": "C02", "title": "Metric names cannot escape the database directory or collide with data files", "statement": "The relative directory of any metric consists of non-empty components none of which is '.' or '..' or contains a raw dot (so none ends in .data), it never starts or ends with '/', and the path of data file n of metric m determines both m and n.", "quantifier": "every byte string as metric name, every file number", "why_tests_cant": "an adversarial name is one of infinitely many; path traversal safety is a for-all statement", "anchors": ["database/files/convert.go: metricToDir, metricToPath", "database/files/metric.go: metricFilenameAt"]}
{"id": "C03", "title": "Stored record encoding round-trips", "statement": "Parsing the marshalled form of a record, followed by any trailing bytes, returns the same kind, start, end, size and data.", "quantifier": "every kind byte, every int64 start and end, every payload up to 65535 bytes, every trailing content of the slot", "why_tests_cant": "payload/timestamp space is 2^100+; must include negative times, empty payloads, stale bytes behind the record", "anchors": ["database/files/record.go: Marshal, MarshalHeader, parse"]}
{"id": "C04", "title": "Values are split into records losslessly", "statement": "Splitting a value over fixed size records produces exactly the announced number of records, each fits a slot, the payloads concatenate to the value, all carry the same times, and the kinds form complete or begin continue* end.", "quantifier": "every value, every record size for which the header leaves room", "why_tests_cant": "boundary conditions (multiples of the chunk size, empty value, largest chunk) range over unbounded data lengths", "anchors": ["database/files/record.go: numRecords, iterateRecords"]}
{"id": "C05", "title": "A corrupted byte in a stored record is detected", "statement": "Changing one byte of a stored record anywhere except in its two length bytes makes parsing fail; parsing never returns a record with altered contents for such a change.", "quantifier": "every record, every byte position outside the length field, every replacement byte", "why_tests_cant": "the checksum argument has to hold for every content; tests only see a few flips", "anchors": ["database/files/record.go: parse, MarshalHeader"]}
{"id": "C06", "title": "File metadata encoding round-trips", "statement": "Metadata (record size, head, start, end, smallest end) decodes to exactly what was encoded and its announced size is the number of bytes written.", "quantifier": "all int64 field values, including negatives", "why_tests_cant": "10-byte varints for negatives and omitted zero fields span 2^320 combinations", "anchors": ["database/files/internal/meta/meta.pb.go: Marshal, MarshalTo, Unmarshal, Size"]}
{"id": "C07", "title": "Serialized distribution records round-trip", "statement": "Decoding an encoded data record returns the same times, observation count, kind, distribution bytes, min/max values and ids and merge count, up to the sign of a zero min or max.", "quantifier": "every record value", "why_tests_cant": "unbounded byte fields, all float bit patterns and all int64 values", "anchors": ["data/record.pb.go: Marshal, Unmarshal, Size"]}
{"id": "C08", "title": "Decoding untrusted bytes never crashes", "statement": "Decoding any byte sequence as metadata or as a data record returns a value or an error; it does not panic or read out of bounds.", "quantifier": "every byte string", "why_tests_cant": "arbitrary inputs; overflow in length arithmetic happens only for specific 10-byte varints", "anchors": ["data/record.pb.go: Unmarshal, skipRecord", "database/files/internal/meta/meta.pb.go: Unmarshal, skipMeta"]}
{"id": "C09", "title": "Accepted file geometries are addressable and reopen identically", "statement": "If creating a file with a given record size and capacity succeeds then every slot lies inside the file, slots and the metadata area do not overlap, and reopening the file yields the same record size and capacity.", "quantifier": "all record sizes and capacities", "why_tests_cant": "the overflow checks are written with wrapping 32 bit arithmetic; the space of size*cap pairs cannot be enumerated", "anchors": ["database/files/file.go: createFile, openFile, offset"]}
{"id": "C10", "title": "Slots are independent", "statement": "Storing a record in a slot makes exactly that record readable from that slot and changes neither the metadata nor any other slot; storing metadata changes no slot.", "quantifier": "every file content, slot number and record that fits", "why_tests_cant": "frame conditions quantify over all other slots and contents", "anchors": ["database/files/file.go: Record, SetRecord, HasRecord, Metadata, SetMetadata", "database/files/file_helpers.go: writeRecord, writeMetadata"]}
{"id": "C11", "title": "The write position is found whatever the stored hint", "statement": "If the occupied slots of a file are exactly a (possibly empty) tail of the file, the computed write position is the slot just before that tail, for any hint stored in the metadata within the file.", "quantifier": "every capacity, every tail length, every stale hint", "why_tests_cant": "the hint can be arbitrarily stale after a crash; capacity unbounded", "anchors": ["database/files/file_ops.go: getHeadPointer"]}
{"id": "C12", "title": "Query returns exactly the stored values, newest first", "statement": "After any history of writes and queries on any metrics, Query(metric, end) calls back with exactly the retained acknowledged values of that metric whose end time is strictly before end, with byte-identical data, in strictly decreasing order of end time.", "quantifier": "every history of writes and queries, every record size/capacity/retention/handle count, every end bound", "why_tests_cant": "unbounded histories crossing file boundaries, evictions and retention", "anchors": ["database/files/db_read.go: Query", "database/files/metric.go: Write, Read"]}
{"id": "C13", "title": "QueryLatest returns the last acknowledged write", "statement": "Immediately after a write of a metric is acknowledged, QueryLatest of that metric returns its start, end and data; and it keeps returning it until another write of the metric is acknowledged.", "quantifier": "every history, every value, every interleaving with operations on other metrics", "why_tests_cant": "histories are unbounded", "anchors": ["database/files/db_read.go: QueryLatest", "database/files/metric.go: ReadLast"]}
{"id": "C14", "title": "Writes that go back in time are refused without effect", "statement": "A write whose end time is not after the end of the newest stored value is reported as not written and no later query result changes; a write whose end is later and that fits is accepted.", "quantifier": "every history, every pair of timestamps", "why_tests_cant": "histories are unbounded; the last record may sit in an older file", "anchors": ["database/files/metric.go: Write", "database/files/db_write.go: write"]}
{"id": "C15", "title": "The handle cache is invisible", "statement": "For any history the results of all writes and queries are the same for every handle-cache capacity (including 0) and every eviction choice; evicting and reopening a file never changes what is read.", "quantifier": "every history, every cache capacity, every eviction sequence", "why_tests_cant": "needs comparing all pairs of cache capacities over all histories", "anchors": ["database/files/file_cache.go", "database/files/cache.go", "database/files/metric.go"]}
{"id": "C16", "title": "Retention and disk usage are bounded", "statement": "With files>0 a metric never owns more than files+1 data files, total bytes stay below size*(cap+1)*(files+1), and only the oldest values are ever dropped; with files=0 nothing is ever dropped.", "quantifier": "every history, every option setting", "why_tests_cant": "unbounded histories", "anchors": ["database/files/db.go: Options", "database/files/metric.go: Write"]}
{"id": "C17", "title": "A failing write does not destroy data", "statement": "A write that returns an error leaves every previously retained value readable.", "quantifier": "every history, every failing value", "why_tests_cant": "needs a value larger than a file combined with a full retention window", "anchors": ["database/files/metric.go: Write"]}
{"id": "C18", "title": "A value is accepted iff it fits into an empty file", "statement": "A value later than everything stored whose record count is at most the file capacity is stored; a value with more records than that is rejected with an error.", "quantifier": "every history and value size", "why_tests_cant": "boundary of head position, file number and record count", "anchors": ["database/files/metric.go: Write"]}
{"id": "C19", "title": "Metrics do not interfere", "statement": "Writing or querying one metric never changes the values any query on another metric returns.", "quantifier": "every pair of distinct metric names, every history", "why_tests_cant": "quantifies over all pairs of names and shared cache states", "anchors": ["database/files/db_write.go: write", "database/files/convert.go", "database/files/file_cache.go"]}
{"id": "C20", "title": "A crash during a write loses nothing that was acknowledged", "statement": "If the process dies at any point during a write, then after restart every previously retained value is still returned, values are never mixed, and the interrupted value is returned either completely or not at all.", "quantifier": "every history, every value, every crash point (every prefix of the byte stores of the write)", "why_tests_cant": "every byte store is a crash point", "anchors": ["database/files/metric.go: Write", "database/files/file_helpers.go: writeMetadata, writeRecord", "database/files/file.go: createFile"]}
{"id": "C21", "title": "A metric recovers from a crash", "statement": "After a crash at any point of a write or of the creation of a file, later writes with newer timestamps are accepted and are returned by queries.", "quantifier": "every crash point followed by any later write", "why_tests_cant": "needs leftovers of a specific shape followed by a specific write", "anchors": ["database/files/metric.go: Write, Read, newMetric", "database/files/file.go: createFile, openFile", "database/files/file_ops.go"]}
{"id": "C22", "title": "Queries are read only", "statement": "Query and QueryLatest do not create metrics: the set of metrics found on disk is the same before and after.", "quantifier": "every history, every queried name", "why_tests_cant": "the name queried may be a proper prefix of another metric's name", "anchors": ["database/files/metric.go: newMetric", "database/files/db_read.go"]}
{"id": "C23", "title": "Query bounds in older files are honoured", "statement": "A query whose end bound lies before the newest file still returns the values of the older files.", "quantifier": "every history spanning several files, every bound", "why_tests_cant": "depends on the position of the bound relative to file boundaries", "anchors": ["database/files/metric.go: Read"]}
{"id": "C24", "title": "File handles are neither leaked nor reused after close", "statement": "Every file handle handed to the cache is at any time in exactly one of: held by the cache, handed out, closed; the number held never exceeds the capacity; a token never yields a file other than the one stored under it.", "quantifier": "every sequence of cache operations, every capacity, every random eviction", "why_tests_cant": "operation sequences unbounded, random evictions", "anchors": ["database/files/cache.go: Put, Take, TakeAll", "database/files/file_cache.go: acquireFile, releaseFile, evictFile, Close"]}
{"id": "C25", "title": "Per-metric locking", "statement": "For any schedule of any number of goroutines that pair Lock and Unlock, at most one goroutine is inside the section of a given key, Unlock never panics, goroutines on different keys do not exclude each other, and when nobody holds or waits the pool keeps no state.", "quantifier": "every number of goroutines, every assignment of keys, every schedule", "why_tests_cant": "all interleavings", "anchors": ["database/files/lock_pool.go"]}
{"id": "C26", "title": "Every queued value is answered exactly once", "statement": "For any schedule of Queue calls, workers, cancellation and shutdown, the callback of each Queue call runs at most once, and exactly once when Queue has returned and the Run that owned its queue has returned.", "quantifier": "every schedule, buffer size, number of workers, drop mode, cancellation point", "why_tests_cant": "interleavings of send, receive, close and drain", "anchors": ["database/files/db_write.go: Queue, worker", "database/files/db.go: Run"]}
{"id": "C27", "title": "Only one Run at a time", "statement": "Among concurrent Run calls at most one is active; a Run call that finds another active returns an error, and after the active one returns a new Run can start.", "quantifier": "every schedule of any number of Run calls", "why_tests_cant": "all interleavings", "anchors": ["database/files/db.go: Run", "internal/junk/flag.go"]}
{"id": "C28", "title": "The launcher waits for all tasks", "statement": "Launcher.Run returns only after every queued task has returned, cancels the tasks' context as soon as one returns, and returns the first non-nil error in completion order (nil if none).", "quantifier": "every number of tasks, every completion order and results", "why_tests_cant": "completion orders and counts unbounded", "anchors": ["internal/junk/launcher.go"]}
{"id": "C29", "title": "Sorted name set", "statement": "The name set contains exactly the added names, each once, and iterates them in increasing byte order; merging is union, copying is independent.", "quantifier": "every sequence of Add/Merge/Copy", "why_tests_cant": "operation sequences and strings are unbounded", "anchors": ["database/files/internal/sset/set.go"]}
{"id": "C30", "title": "Metrics lists every written metric once", "statement": "When calls do not overlap, Metrics calls back with exactly the union of the populated names and the names written since, each once, in sorted order; and no acknowledged name is ever lost under concurrency.", "quantifier": "every history of writes, PopulateMetrics and Metrics; every interleaving", "why_tests_cant": "interleavings of workers and several Metrics/PopulateMetrics calls", "anchors": ["database/files/db_read.go: Metrics, PopulateMetrics", "database/files/db_write.go: write"]}
{"id": "C31", "title": "Populating finds exactly the metrics on disk", "statement": "Walking the directory tree finds exactly the names of the metrics that have a data file.", "quantifier": "every directory tree produced by the database", "why_tests_cant": "trees are unbounded", "anchors": ["database/files/db_read.go: populate"]}
{"id": "C32", "title": "Directory entry parsing", "statement": "Parsing the bytes returned by the kernel yields exactly the entries with non-zero inode other than . and .., in order, consuming the buffer.", "quantifier": "every list of well-formed entries; every byte buffer for progress", "why_tests_cant": "unbounded buffers; malformed record lengths", "anchors": ["database/files/internal/system/dirent.go: NextDirent"]}
{"id": "C33", "title": "Random eviction index is in range and balanced", "statement": "The reduction of a 32-bit random number to [0,m) is in range for every m between 1 and 2^32, monotone, hits every index, and the number of inputs per index differs by at most one.", "quantifier": "every 32 bit number and every m", "why_tests_cant": "2^64 pairs", "anchors": ["database/files/common.go: fastMod", "database/files/cache.go: Put"]}
{"id": "C34", "title": "PCG generator is deterministic and its state steps are invertible", "statement": "The generator's zero value behaves as the generator seeded with zeros, the increment is always odd, and distinct states stay distinct after a step so the sequence of states is purely periodic.", "quantifier": "all 2^64 states and increments", "why_tests_cant": "2^128 state/increment pairs", "anchors": ["internal/pcg/pcg.go"]}
{"id": "C35", "title": "Observations are captured exactly once in contiguous windows", "statement": "For non-overlapping calls, each finite value added between two captures is reflected in exactly the next capture, under its metric, non-finite values in none; consecutive capture windows share their boundary.", "quantifier": "every sequence of Add and Capture calls, any metrics and values", "why_tests_cant": "sequences unbounded", "anchors": ["data/writer.go: Add, Capture, Iterate"]}
{"id": "C36", "title": "Aggregates report true counts, minima, maxima and ids", "statement": "After observations v1..vn (n>=1) an aggregate reports n, min, max and an id under which the min/max was observed; also under concurrent observation.", "quantifier": "every sequence of observations; every interleaving of two observers", "why_tests_cant": "interleavings and all floats", "anchors": ["data/agg.go: Observe, Finish"]}
{"id": "C37", "title": "Dump accounting", "statement": "A dump queues each captured record exactly once and returns only after every callback has run; the numbers reported are the numbers of results of each kind.", "quantifier": "every set of records and callback results and orders", "why_tests_cant": "callback orders", "anchors": ["dump/dump.go"]}
{"id": "C38", "title": "Merging records combines their metadata", "statement": "Merging records yields the earliest start, latest end, total observations, the overall min and max with the id belonging to them, and the sum of merge counts (0 counting as 1).", "quantifier": "every non-empty list of records", "why_tests_cant": "lists unbounded; the extreme can be in any position", "anchors": ["merge/merge.go: Merge"]}
{"id": "C39", "title": "Columns of a rendered metric partition the window", "statement": "Pushed records (newest first) are turned into columns that do not overlap, each column being the merge of exactly the records whose time range covers its pixels, and every pixel covered by a record is in a column.", "quantifier": "every window, width and sequence of records", "why_tests_cant": "sequences unbounded, clamping and division rounding", "anchors": ["merge/merger.go: SetWidth, Push, Finish"]}
{"id": "C40", "title": "Glob matching", "statement": "A name component matches a pattern iff some prefix of it can be written from the pattern with each * replaced by some (possibly empty) text and each ? by one character, ignoring case (so \"a\" matches \"abcd\").", "quantifier": "every pattern and name", "why_tests_cant": "strings unbounded, backtracking", "anchors": ["api/query/glob.go: glob"]}
{"id": "C41", "title": "Query specs", "statement": "A metric matches a query iff some run of consecutive dotted components matches the query's patterns in order.", "quantifier": "every query and metric", "why_tests_cant": "unbounded strings", "anchors": ["api/query/spec.go: newSpec, Match"]}
{"id": "C42", "title": "Search returns the first matches", "statement": "A search with capacity k returns the first k matching names in the order added, and signals fullness exactly when reached.", "quantifier": "every sequence of names, every k >= 0", "why_tests_cant": "sequences unbounded", "anchors": ["api/query/search.go"]}
{"id": "C43", "title": "HTTP access control", "statement": "When a username is configured no endpoint answers a request without the right credentials; no request other than GET reaches a handler; unknown API paths are 404.", "quantifier": "every request (method, path, credentials), every configuration", "why_tests_cant": "request space infinite", "anchors": ["api/server.go: ServeHTTP"]}
{"id": "C44", "title": "Graphite line protocol", "statement": "A line is accepted iff it consists of exactly three space separated fields whose second is a number; an accepted line adds exactly that value to exactly that metric, a rejected line adds nothing.", "quantifier": "every byte line", "why_tests_cant": "unbounded inputs", "anchors": ["listener/graphite/listener.go: handleLine"]}
{"id": "C45", "title": "Canvas pixel addressing", "statement": "Setting a pixel of an image inside its bounds changes exactly that pixel's three colour bytes; views address the pixels at the right offset; distinct pixels never alias.", "quantifier": "every image size, view rectangle and coordinate", "why_tests_cant": "index arithmetic over all sizes", "anchors": ["draw/common.go: RGB"]}
{"id": "C46", "title": "CDF lookup", "statement": "The CDF estimate is a dyadic fraction in [0,1] and is monotone in its argument whenever the quantile function is monotone.", "quantifier": "every monotone quantile function, all arguments", "why_tests_cant": "function space", "anchors": ["dist/tdigest/wrapper.go: CDF"]}
{"id": "C47", "title": "Configuration acceptance", "statement": "A configuration is accepted iff it names exactly one database and exactly one distribution and everything parses; the redacted form contains no configured secret.", "quantifier": "every configuration", "why_tests_cant": "unbounded configs", "anchors": ["config/load.go", "config/config.go"]}
{"id": "C48", "title": "Plugin registry", "statement": "Constructing a component calls the most recently registered maker for that kind and name, and reports an error when none was registered.", "quantifier": "every sequence of registrations", "why_tests_cant": "sequences unbounded", "anchors": ["registry/registry.go"]}
{"id": "C49", "title": "Typed access to decoded configuration", "statement": "Accessing a path in decoded data returns the value iff it is present with the right type at that path, absent values give zero values, and after the first error all later accesses report that first error.", "quantifier": "every decoded value tree and every access path", "why_tests_cant": "trees unbounded", "anchors": ["internal/typeassert/asserter.go"]}
{"id": "C50", "title": "Static asset directories list each entry once", "statement": "Repeatedly reading a directory of the embedded asset filesystem with any positive count returns every entry exactly once and then end of file.", "quantifier": "every listing and sequence of counts", "why_tests_cant": "sequences of counts unbounded", "anchors": ["internal/tgzfs/file.go: Readdir"]}
{"id": "C51", "title": "Concurrent adds and captures", "statement": "When Add and Capture calls overlap, no call panics, no value is delivered twice (to two captures or twice to one), and a value is delivered only under the metric it was added to.", "quantifier": "every schedule of any number of goroutines calling Add and Capture", "why_tests_cant": "interleavings of lock-free page swaps", "anchors": ["data/writer.go: Add, Capture", "data/agg.go: Finish"]}
{"id": "C52", "title": "Query endpoint", "statement": "GET /api/query answers the first `results` (default 10) metric names of the database that match every word of the query, in the database's order.", "quantifier": "every query string, number of results and set of metrics", "why_tests_cant": "unbounded metrics and queries", "anchors": ["api/server.go: serveQuery", "api/query/search.go"]}
{"id": "C53", "title": "Render endpoint", "statement": "GET /api/render answers the columns of exactly the metric's records that meet the requested window (none for a metric without data), with the window and the newest record used.", "quantifier": "every request, every stored history", "why_tests_cant": "unbounded histories and parameters", "anchors": ["api/server.go: serveRender", "merge/merger.go"]}
{"id": "C54", "title": "Graphite connections handle every line in order", "statement": "On a graphite connection every line (ended by a newline or CRLF, the last one possibly unterminated, shorter than 64 KiB) is handled in the order sent: the metrics receive exactly the additions the valid lines ask for, in order, and invalid lines between them change nothing. A longer line ends the connection, after the previous lines took full effect.", "quantifier": "all byte streams sent on a connection, all values of the clock, all prior writer histories", "why_tests_cant": "A test sends a few fixed streams; the claim ranges over every stream, including invalid lines at every position and lines at the buffer limit.", "anchors": ["listener/graphite/listener.go: handleConn, handleLine", "data/writer.go: Writer.Add"]}
{"id": "C55", "title": "Heat map columns", "statement": "Drawing a column on the heat map paints exactly the pixels of that column (its x range, all rows of the canvas) and no other pixel; row r from the bottom of h rows shows the data point i of n with i <= r(n-1)/(h-1) <= i+1, in the colour at floor(m*(c-1)) of the c colours for the mapped value m in [0,1]; the bottom row shows the first and the top row the last data point; it never panics.", "quantifier": "all canvas sizes and views, columns inside the canvas, data of any length, all maps into [0,1]", "why_tests_cant": "the index is computed in floating point, where rounding depends on every pair of lengths; sizes are unbounded.", "anchors": ["draw/heatmap/heatmap.go: Heatmap.Draw"]}
{"id": "C56", "title": "Colour key", "statement": "Drawing the key paints exactly its rectangle, with the first colour at the bottom, the last at the top and the others spread evenly in order between them.", "quantifier": "all key sizes, numbers of colours and views", "why_tests_cant": "floating point index over all sizes", "anchors": ["draw/key/key.go: Draw"]}
{"id": "C57", "title": "Observation rate bar", "statement": "The observations bar paints exactly the rectangle of every column in one grey (later columns over earlier ones); the columns with the highest rate are black and a column with a higher rate is never lighter than one with a lower rate.", "quantifier": "all lists of columns, finite rates and canvas sizes", "why_tests_cant": "floating point ratio over all rates; unbounded columns", "anchors": ["draw/observations/obs.go: Measured.Draw"]}
{"id": "C58", "title": "Start-up is all or nothing", "statement": "The run command starts its services iff the configuration is accepted, every plugin opens, and the database, the distribution and every listener can be made by the most recently registered maker of their kind from their part of the configuration; what is started is exactly what was made (listeners in order), otherwise an error is returned and nothing is started.", "quantifier": "every configuration document, set of plugins and sequence of registrations", "why_tests_cant": "documents, plugins and registrations unbounded", "anchors": ["run.go: run, runCommand", "config/load.go: Load", "registry/registry.go", "database/files/register.go", "dist/tdigest/register.go", "listener/graphite/register.go"]}
{"id": "C59", "title": "Embedded assets are served under their names", "statement": "Opening a path of the embedded asset filesystem gives the contents of the last tarball entry with that cleaned name; a path not in the tarball gives index.html when there is one and 'does not exist' otherwise.", "quantifier": "every tarball and every path", "why_tests_cant": "unbounded tarballs and paths", "anchors": ["internal/tgzfs/fs.go: New, getFile, Open"]}
{"id": "C60", "title": "Graceful stop", "statement": "run returns only after the database and all services have returned; the last dump starts only after every service returned without error, with the database not told to stop before it ends (unless it stopped by itself); when run returns nil and the last dump was not cut by its timeout or by the database ending, every value the services added has been handed to the database; and run does return once its components have.", "quantifier": "every number of services, every schedule, every time and result of each component", "why_tests_cant": "schedules unbounded", "anchors": ["run.go: run", "internal/junk/launcher.go: Launch"]}
{"id": "C61", "title": "Decoding follows the protobuf wire format", "statement": "Decoding any well-formed protobuf message (fields in any order, repeated, non-minimal varints, unknown fields and nested groups in between) as a distribution record or as file metadata yields exactly the record its fields describe, the last occurrence of a field winning and unknown fields changing nothing; a known field with the wrong type is an error.", "quantifier": "every well-formed message shorter than 2^62 bytes", "why_tests_cant": "messages are unbounded in length, nesting and field order", "anchors": ["data/record.pb.go: Unmarshal, skipRecord", "database/files/internal/meta/meta.pb.go: Unmarshal, skipMeta"]}
{"id": "C62", "title": "Concurrent database calls are linearizable", "statement": "However the steps of concurrent Query, QueryLatest and write calls of any number of goroutines interleave, there is one order of the calls that respects real time (a call that returned before another was invoked comes first) in which making them one after the other gives exactly the observed answers. In particular a QueryLatest invoked after an acknowledged write of the same metric returned reports that value or a newer one, and successive QueryLatest calls never go back in time.", "quantifier": "every number of goroutines, every sequence of calls of each, every schedule, every file geometry and handle limit", "why_tests_cant": "schedules, goroutines and histories are unbounded", "anchors": ["database/files/db_read.go: Query, QueryLatest", "database/files/db_write.go: run", "database/files/metric.go: newMetric, Write, Read, ReadLast", "database/files/lock_pool.go", "database/files/file_cache.go"]}
{"id": "C63", "title": "Rate of a column", "statement": "The observations-per-second value of every rendered column is the mean, over exactly the records that meet its pixels, of observations / merge count / seconds covered, up to a relative error of (n+10)*2^-51 for n records, and it is finite.", "quantifier": "every window, width and sequence of records with a merge count of at least one and a positive length", "why_tests_cant": "floating point rounding over unbounded sequences of records", "anchors": ["merge/merger.go: emit"]}
{"id": "C64", "title": "Picture of an axis", "statement": "Measuring and drawing an axis never panics and changes, inside the measured box, exactly: the line over the whole length, a ten pixel tick for every label at the pixel int((length-1)*position) (exact where that product is an integer, otherwise within one double rounding), and the texts of the labels that are drawn, beside a vertical axis (mirrored with Flip) or below a horizontal one; nothing outside the measured box changes. The measured box is the least one that has room for them. Without a canvas, or with too small a one, a new white picture of that size is used.", "quantifier": "every list of labels with positions in [0,1] and non-empty texts, every length, orientation, Flip and DontBleed, every fixed-width font and every way it paints its cells, every picture and place in it", "why_tests_cant": "all positions, labels, lengths and floating point roundings", "anchors": ["draw/axis/axis.go: Measure, Draw, measureVertical, drawVertical, measureHorizontal, drawHorizontal"]}
{"id": "C65", "title": "Axis labels are left out rather than overlapped", "statement": "Of the labels in order, the first is drawn, and a later one is left out exactly when it is too close to the last one drawn (vertical: less than two pixels below its base line; horizontal: starting at most ten pixels after its end); so texts drawn do not overlap.", "quantifier": "every list of labels, length and font size", "why_tests_cant": "an invariant over all sequences of labels", "anchors": ["draw/axis/axis.go: drawVertical, drawHorizontal, fits"]}
{"id": "C66", "title": "Layout and picture of a chart", "statement": "Measuring a chart divides the requested width and height exactly among rates, axes, heat map and colour key (less than 50 pixels high is refused). Drawing it never panics and every pixel of the result is given by the parts, each at its place: rates, left axis, heat map, colour key, right axis, time axis; no part is drawn over another and nothing is drawn into the padding or outside. The labels beside the heat map are the quantiles that the rows beside them show, one every 30 rows and 0 at the bottom. Without a canvas, or with too small a one, a new white image of exactly the chart's size is used.", "quantifier": "every chart of at least 221x52 pixels (at most 2^24), window, padding, list of columns inside the heat map, colours, distribution, canvas and place in it, fixed-width painting of the 6x14 font cells", "why_tests_cant": "every size, every list of columns and labels, every pixel, floating point positions", "anchors": ["draw/graph/graph.go: Measure, tryMeasure, Draw", "draw/observations/obs.go: Measure, Draw", "draw/axis/axis.go", "draw/heatmap", "draw/key"]}
{"id": "C67", "title": "Times on the time axis", "statement": "The time axis of a chart over [now-duration, now] has a label for exactly the multiples, within that window, of one unit of 1, 2, 4, ..., 24 hours: the largest smaller than the time that 100 pixels stand for (an hour if none is). They are in order, each with the text of its time and a position within 2^-48 of its place in the window, so its tick is the pixel of its time.", "quantifier": "every now since 1970, duration and width of at least 100", "why_tests_cant": "every time, duration and width; accumulated floating point rounding", "anchors": ["draw/graph/graph.go: tryMeasure", "draw/graph/common.go: naturalUnits"]}
{"id": "C68", "title": "Rendered picture", "statement": "GET /api/render (not JSON) for a metric with records is answered with an image of exactly the asked size. In it there is a heat map of the window [now-duration, now): in column i and row j it has the colour, from the viridis table, of the rank (under the newest record's distribution) of that row's quantile of the merge of exactly the records whose time range meets the time of column i; it is white where there is no such record. Everything else of the image is the chart of C66 for these columns.", "quantifier": "every request for a window since 1970 of at least 221x52 pixels, every list of readable records that ended before now, every t-digest behaviour, text and font shading", "why_tests_cant": "every request, history of records, and pixel; composition of server, merger, measuring, floating point scaling and drawing", "anchors": ["api/server.go: serveRender", "merge/merger.go", "draw/graph/graph.go", "draw/heatmap", "draw/colors/viridis.go"]}
{"id": "C69", "title": "Lines sent to the listener come back from the database", "statement": "After any sequence of graphite connections, dumps, queries and restarts on one data directory, a query of a metric with a bound after its newest period answers, newest first, with exactly one value for each finished period in which valid lines gave the metric finite values (all of them when the number of files is unlimited, otherwise the newest ones); the value's bytes decode to a record with the period's bounds, the number of its values, a smallest and a largest value and the distribution of exactly these values. QueryLatest answers with the newest period, and a render request decodes exactly the records of the periods it shows. Only values not yet dumped are lost by a restart.", "quantifier": "all sequences of connections (any lines), dumps at increasing times, queries and restarts; all metrics; all orders in which the database performs the writes of a dump", "why_tests_cant": "The listener, the aggregation, the dumper, the codec and the files database must agree for every input history; a test runs one history.", "anchors": ["run.go:run", "listener/graphite/listener.go:handleConn", "data/writer.go:Add,Capture", "dump/dump.go:Dump", "database/files/db.go:Queue,Query,QueryLatest", "api/server.go:serveRender"]}
{"id": "C70", "title": "Static pages", "statement": "A GET outside the api is answered from the embedded archive: a regular file that is not a page with exactly its bytes, a page (.html) with its text rendered for the request (and the rendered size), the root with the rendered index.html, the path of an index page with a redirect, an unknown page with the rendered index, and with 404 if there is none; a build without a ui answers the four names of the front page with a warning and every other path with 404. A page that cannot be rendered is answered with an error, and no unrendered template is ever sent.", "quantifier": "every archive, every request path and query values, every template engine", "why_tests_cant": "path cleaning, the file system, the template layer and net/http's file server must agree for every archive and path", "anchors": ["internal/tmplfs/fs.go: Open", "internal/tgzfs/fs.go", "api/server.go: ServeHTTP", "ui/ui.go: tarball"]}
{"id": "C71", "title": "Demo data", "statement": "The demo command queues for each of its six metrics one hundred records that cover the 24 hours up to now without gap or overlap, each with the start, end and number of observations of its piece and the smallest and largest value observed; on an empty database a query of each metric afterwards answers with exactly them, newest first (all of them when the number of files is unlimited). It reports success only if the values were stored, and ends whatever the database answers.", "quantifier": "every sequence of random values, every time of the call, every order of the metrics, every database configuration with room for the records", "why_tests_cant": "random data, map order, every database state and answer", "anchors": ["demo.go: addDemoData", "database/files/db.go: Queue"]}
{"id": "C72", "title": "System calls that fail", "statement": "If any open, mkdir, readdir, stat, mmap, fallocate or remove fails in any call, no call panics or hangs: each answers or returns an error. Whatever failed before, a metric all of whose files can be opened answers queries from the log of acknowledged writes (as if nothing had failed), accepts newer values and refuses old ones; a query during which a call fails returns the newest part of its answer and an error. A file that cannot be opened only appears when creating a file failed half way. A failed call has no lasting effect.", "quantifier": "every history of writes, queries, restarts and deletions of broken files; every choice of failing system calls in each of them; every metric", "why_tests_cant": "failures can happen at every system call of every call, in every state of files, handles and cache, and in any combination", "anchors": ["database/files/file.go: createFile, openFile", "database/files/file_cache.go: acquireFile", "database/files/metric.go: newMetric, acquireLast, Write, Read", "database/files/db_write.go: write", "database/files/db_read.go: Query, QueryLatest"]}
{"id": "C73", "title": "Command line", "statement": "init never changes a rothko.toml that exists, ends with status 0 exactly when it wrote the initial configuration, and otherwise ends with status 1, says why and leaves no file behind. The configuration it writes is one that run starts: files database, t-digest, graphite listener on :1111, server on :8080, with sizes for which the storage guarantees hold. run and demo end with status 0 exactly when they started and ended without an error, print nothing else in that case, and one message saying what went wrong otherwise. A wrong number of arguments has no effect.", "quantifier": "every number of arguments, every file contents, every outcome of stat, write and start, every interference by other processes", "why_tests_cant": "races with other processes, failing calls, every TOML decoder that reads the initial text as the reader in TomlSpec.v does", "anchors": ["main.go: main", "init.go: action", "run.go: action", "demo.go: action", "utils.go: checkArgs", "config/initial.go: InitialConfig"]}
{"id": "C74", "title": "Options of a new database", "statement": "New keeps the options it is given, except that a number of workers of 0 becomes GOMAXPROCS-1 but at least 1, a negative number of handles becomes 0, and a number of handles of 0 becomes the documented number below the soft limit of open files. It never panics and always has at least one worker, so with a limit below 2^32 the storage guarantees hold for what it makes.", "quantifier": "every option value, every GOMAXPROCS, every limit or failing getrlimit", "why_tests_cant": "depends on limits of the machine the process runs on", "anchors": ["database/files/db.go: New"]}
{"id": "C75", "title": "SIGINT", "statement": "The first SIGINT never ends the process: it makes the context done, in a bounded number of steps; the context is done only because of a SIGINT, its parent or cancel; after the shutdown began another SIGINT ends the process.", "quantifier": "every interleaving of signals, cancellations and the waiting goroutine", "why_tests_cant": "depends on the schedule of the goroutine and the delivery of signals", "anchors": ["internal/junk/signal.go: WithSignal", "run.go: run"]}
{"id": "C76", "title": "Damaged data files", "statement": "After any history, if records of data files are damaged so that they no longer parse (any number, anywhere but in the metadata and in the newest record of a metric), every later call answers as without the damage, except that queries miss exactly the values whose records were damaged; one changed byte costs at most one value; no call panics, hangs or reports altered data.", "quantifier": "every history before and after the damage, every set of damaged records, every changed byte", "why_tests_cant": "all damage patterns at all points of all histories", "anchors": ["database/files/metric.go: Read, Write, getHeadPointer", "database/files/record.go: parse", "database/files/file.go: openFile, Record, HasRecord"]}
{"id": "C77", "title": "Power failure", "statement": "Take a moment at which all data of a metric was on disk (its files are memory maps the operating system writes back when it likes). If the power fails at any later time, with the metadata and each record of its files in any of the states they had since that moment, or torn if they were not there yet, and if the metric got no new file since, then after the restart every query of the metric succeeds and reports every value it reported at that moment, in the same order, and besides only values accepted since, each unaltered and at its place; QueryLatest reports a value at least as new. Nothing more holds: acknowledged values not yet on disk are lost, a torn newest record blocks all later writes, an unwritten new file hides all older values.", "quantifier": "every history before and after the moment, every combination of written-back and stale parts of the files, every torn record, every restart option", "why_tests_cant": "all write-back orders and failure points", "anchors": ["database/files/metric.go: Read, getHeadPointer", "database/files/file.go: SetRecord, SetMetadata, FullSync, FullAsync", "database/files/record.go: parse"]}
{"id": "C78", "title": "Stopping a graphite listener", "statement": "A graphite listener's Run returns only when it accepts no more connections and every line it read on every connection, including an unfinished last one, has been given to the writer, each once and in the order of its connection; nothing is given to the writer afterwards. After the context is cancelled it returns within a bounded number of its own steps in every schedule, with nil unless listening or accepting failed; it returns an error only then. A line cut off by closing the connection either is not accepted or says the same metric and value as the whole line. It does not keep listening after one failing Accept: that ends it with an error.", "quantifier": "every number of connections, every sequence of bytes and every way they arrive, every interleaving of the accepting, reading and main goroutines with cancellation and clients, every failing Accept", "why_tests_cant": "interleavings of unboundedly many connections with cancellation; byte boundaries at which a connection is cut", "anchors": ["listener/graphite/listener.go: Run, handleListener, handleConn"]}
{"id": "C79", "title": "Stopping the api server", "statement": "The goroutine serving the api returns nil only if its context was cancelled and an error only if listening or serving failed; when it has returned the listening socket is closed and no request is begun any more; no request in progress is broken off by it; after cancellation it returns in a bounded number of its own steps. It does not wait for requests in progress: it returns as soon as Shutdown begins, so the minute given to Shutdown is not used when the process ends; with the net/http of Go up to 1.10 a cancellation before Serve starts leaves the server running.", "quantifier": "every interleaving of the serving goroutine, the shutdown goroutine, clients and cancellation, every number of connections and requests", "why_tests_cant": "interleavings of cancellation, Serve, Shutdown and requests", "anchors": ["run.go: runServer"]}
{"id": "C80", "title": "A whole process from SIGINT to its end", "statement": "In every schedule of a running process (listeners with their connections, api server, periodic dumps, launcher, last dump): every line read by a listener before run returns was given to the writer; if run returns nil and the last dump was not cut off, exactly these lines are in the dumps handed to the database, each once; the last dump is left out only if a listener or the api failed. After a SIGINT the services stop in a bounded number of the program's own steps whatever clients do, and if none of them failed the last dump begins. One failing accept on any listener ends the process without the last dump, and the lines since the previous dump are lost. Until there is a SIGINT, a failure in a listener or the api, or the database returns, the process keeps running: no service returns and the last dump does not begin.", "quantifier": "every number of listeners, connections and lines, every schedule and every moment of the signal", "why_tests_cant": "composition over all interleavings of unboundedly many goroutines", "anchors": ["run.go: run, runServer", "internal/junk/launcher.go: Launcher.Run", "listener/graphite/listener.go: Run, handleListener, handleConn", "dump/dump.go: Run, Dump"]}
{"id": "C81", "title": "Texts in the pictures can be read", "statement": "Drawing a text with the embedded font never panics, whatever the text and wherever it lies, and changes exactly the pixels of its cells (6 wide, 11 above and 3 below the base line, cut off at the part's right and lower edges) by the darkness its characters' glyphs say; it advances by what measuring said if all characters have glyphs. Two printable texts drawn at the same place of a white picture look the same only if they are the same but for spaces at the end. Every label drawn beside an axis appears unspoilt by other labels, ticks and lines, so that a numeric (vertical) or printable (horizontal) label is determined by the pixels of its cell. Characters without a glyph leave no trace, though they are measured; the lowest row of the digits of the lowest label of a chart's left axis is cut off. On any background each channel is within one level of the exact mixture of black and what was there.", "quantifier": "every text, place and picture; every axis and chart within the sizes of C64 and C66", "why_tests_cant": "all texts, all pairs of texts and all positions, including those cut off at the edges", "anchors": ["draw/iosevka/font.go: all", "draw/axis/axis.go: Measured.Draw", "draw/graph/graph.go: Measured.Draw", "golang.org/x/image/font and font/basicfont as used there"]}
{"id": "C82", "title": "The numbers on a chart say what they stand for", "statement": "The text of a number at a chart's left axis, read as a decimal number, is the multiple of 0.01 nearest to the value; that of a value at the right axis and that of the largest rate is the nearest number with three significant digits, all three of which are shown (Go 1.14 and later). So they are off by at most 1/200, resp. 1/200 of the value, are in the order of the values, and equal texts belong to values that close to each other. The label at p of the way down the left axis says 1-p, that on the right the quantile 1-p of the newest record. NaN and the infinities are named. All characters have glyphs, a quantile takes four characters, a value up to ten (nine if its exponent has two digits), and the label of the rates fits in its 17 characters unless the exponent has three digits.", "quantifier": "every float64, including subnormal ones, zeros, infinities and NaN; every chart within the sizes of C66", "why_tests_cant": "2^64 values and the roundings between them: ties, carries through nines, changes between forms", "anchors": ["draw/graph/graph.go: tryMeasure (labels)", "draw/observations/obs.go: Draw", "fmt.Sprintf and strconv.FormatFloat as used there"]}
{"id": "C83", "title": "The times on a chart", "statement": "The text of a time below a chart says month and day by the Gregorian calendar, hour and minute on the clocks of the server's zone, rounded down to the minute, for every time including those before 1970. It takes 11 to 13 characters, all with glyphs. The labels of a chart stand at the multiples of the step, in order, and say the time there; on a chart of at most 364 days during which the clocks are not changed they are all different. In the hour repeated when the clocks are set back, and on charts of more than a year, different times can have the same text. With these texts, C82's and the embedded font (C81), every chart of a fair size is drawn as C66 says, without assumptions about texts.", "quantifier": "every int64 of nanoseconds; every zone (a function from time to offset); every chart", "why_tests_cant": "all times over 584 years, all zones and all pairs of labels", "anchors": ["draw/graph/graph.go: tryMeasure (bottom labels)", "draw/graph/common.go: naturalUnits", "time.Unix and Time.Format as used there"]}
{"id": "C84", "title": "The JSON answers can be read back", "statement": "The answers of /api/query and (with Accept: application/json) /api/render are JSON texts in UTF-8 for all metric names, whatever bytes they consist of, and have one reading. A query's answer is the list of the matching names in order, each exactly if it is UTF-8, so that the answer determines the names. A chart's answer is an object with exactly the columns (null if there are none), window, size, padding and name of the chart, and the bytes of the newest record in base64. No answer contains <, > or & or, before its final newline, control characters. Names that are not UTF-8 are shown with U+FFFD: different ones get the same answer and the shown name is not one of them, so such a metric cannot be asked for from a search result.", "quantifier": "every list of names of any bytes; every chart with finite values", "why_tests_cant": "all byte strings, with escaping, invalid and truncated UTF-8 at every position", "anchors": ["api/server.go: serveQuery, serveRender (json.NewEncoder)", "draw/common.go: Column", "encoding/json, encoding/base64 and unicode/utf8 as used there"]}
{"id": "C85", "title": "Graphite numbers are taken as the nearest float64", "statement": "The value of a graphite line is read as a decimal number (an optional sign, digits with an optional point, an optional exponent) and recorded as the float64 nearest to it, of two equally near ones the even one, keeping the sign of zero; whole numbers up to 2^53 and every decimal expansion of a float64 are recorded exactly, and order is kept. A number is refused exactly if it is at least halfway from the greatest float64 to 2^1024. The words inf, infinity and nan, in any case, are accepted and record nothing. Every other line is refused and records nothing.", "quantifier": "every line of any bytes, every number of any number of digits with an exponent of at most five digits, every state of the writer", "why_tests_cant": "all decimal texts of any length; the rounding of each to the nearest double, with all ties and the limits of range", "anchors": ["listener/graphite/listener.go: handleLine (strconv.ParseFloat)", "data/writer.go: Add", "api/common.go: getFloat64"]}
{"id": "C86", "title": "Floats in JSON answers read back exactly", "statement": "Every finite float64 in a JSON answer is written as a JSON number that stands for it: it is the float64 nearest to that number (zeros keep their sign), so that reading the number correctly rounded gives the same bits. The number has no more digits than any other decimal number that reads as the same float64, and among those with as many digits it is the closest to it. An exponent is used exactly for numbers but 0 below 1e-6 or from 1e21. A chart's answer therefore contains its columns exactly.", "quantifier": "every finite float64; every chart with finite values", "why_tests_cant": "2^64 bit patterns, and minimality over all decimal numbers", "anchors": ["api/server.go: serveRender (json.NewEncoder)", "draw/common.go: Column", "encoding/json floatEncoder and strconv.AppendFloat as used there"]}
{"id": "C87", "title": "Durations mean what is written", "statement": "A duration is accepted exactly if it is an optional sign and one or more numbers, each with a fraction or not and each followed by ns, us (or a letter mu and s), ms, s, m or h - or 0 - and its sum fits 2^63-1 ns. If no part has more digits after the point than its unit has powers of ten, it means exactly the sum of its parts, to the nanosecond; with up to 22 digits after a point every part is less than 1.02 ns short and less than 0.01 ns long. A query's duration is that, or the default when the text is refused. The text that is made of a duration is read back as that duration (not for -2^63 ns, whose text is refused; and zeros added to the end of a long fraction can change the result by a nanosecond).", "quantifier": "every text; every duration of 64 bits", "why_tests_cant": "texts are unbounded, the intermediate products are floats and 2^64 durations must round trip", "anchors": ["config/common.go: textDuration", "api/common.go: getDuration", "api/server.go: serveRender", "time.ParseDuration and Duration.String as used there"]}
{"id": "C88", "title": "How much damage a record's checksum is sure to notice", "statement": "If the bytes of a stored record change other than in the two length bytes, and the change is one to three flipped bits anywhere in the record, any odd number of flipped bits, or anything at all within four neighbouring bytes of the header, of the checksum or of the data, then reading the record reports an error, whatever the record is and whatever follows it; in a database such damage (not in the newest record of the metric) costs at most one value and never makes a query report an altered one. Four flipped bits, or one flipped bit of the length, can go unnoticed.", "quantifier": "every record, every such change, every history of the database before and after it", "why_tests_cant": "a record of 65535 bytes has 2.4e16 triples of bits; that none goes unnoticed is an algebraic property of the polynomial (its powers do not repeat in any record)", "anchors": ["database/files/record.go: Marshal, parse, castTable", "database/files/file.go: Record", "database/files/metric.go: Read"]}
{"id": "C89", "title": "Descriptors and mappings of data files", "statement": "Creating, opening, syncing and closing data files never leaves a file descriptor open, whichever system calls fail; an opened file keeps its own mapping until it is closed, and no two open files share one, so data is never reached through an address that was unmapped; and as long as the files' first records are readable (which every history of a database guarantees) and munmap works, the mappings of the process are exactly those of the files it holds, so that nothing leaks whichever other calls fail. Opening a file whose first record is damaged leaks a mapping every time, and errors of msync and munmap are never reported.", "quantifier": "every sequence of create, open, sync and close calls, and every pattern of failing system calls", "why_tests_cant": "a test cannot make each call of each sequence fail, and a leak shows only in the process as a whole after many calls", "anchors": ["database/files/file.go: createFile, openFile, Close, FullSync, FullAsync", "database/files/internal/system/mmap.go: Mmap, Munmap, Msync", "database/files/internal/system/alloc_linux.go: Allocate"]}
{"id": "C90", "title": "The format of data files", "statement": "A stored record consists of exactly the bytes of one fixed format (version 1, kind, start, end and length of the data, big endian, then the CRC-32C of all that and the data, then the data), where the checksum is the standard one, the complement of the remainder of a division by the Castagnoli polynomial; whatever bytes are read, a record is reported only if they begin with one of that format, and then exactly that one. After any history the data files of a metric, read with nothing but the definition of the format, are numbered without gaps and hold exactly the values that queries answer: the newest acknowledged ones, each in one piece or in a first, middle and a last piece, the newest first, after unused records that start with a zero.", "quantifier": "every record, every byte string read, every history of calls and restarts", "why_tests_cant": "that a checksum computed by table lookups equals a polynomial remainder for every string, and that every file of every history keeps the format, cannot be enumerated", "anchors": ["database/files/record.go: Marshal, MarshalHeader, parse, castTable, iterateRecords", "database/files/file.go: SetRecord, offset", "database/files/metric.go: Write", "database/files/db_write.go: Queue"]}
{"id": "C91", "title": "Stored distributions can be loaded again", "statement": "Loading the distribution of a stored record uses the most recently registered maker of the record's kind without any configuration, refuses kinds nobody registered, never changes the registry, and so gives the same whatever else is loaded before, after or at the same time. Unless a plugin replaces the built-in t-digest, every record of that kind loads exactly when its bytes are those of a t-digest, whatever compression is configured now or was when it was written; in particular every record a Capture delivers, written and read back, loads as the sketch of exactly the values added in its window.", "quantifier": "every history of registrations and constructions, every set of plugins, every configuration at writing and at reading, every history of a writer, every record and sequence of loads", "why_tests_cant": "it must hold for all combinations of plugins and configurations at the two ends and for all histories of values", "anchors": ["data/load/load.go: Load", "registry/registry.go: NewDistribution", "dist/tdigest/register.go", "dist/tdigest/wrapper.go: Params.Unmarshal, Kind", "data/agg.go: Finish"]}
{"id": "C92", "title": "Every JSON answer of the api server can be read", "statement": "Whatever request arrives, whatever the database holds, and whatever fails, an answer of the api server that is JSON (the names of a query, the data of a chart) is well-formed JSON that says what was found: the names in order; every column of the chart with each of its floats exactly, the window and size, the metric, and the bytes of the newest record. No stored record, however odd its counts, times and floats are, makes the server send something that is not JSON: it sends an error instead.", "quantifier": "every request, configuration, database content (any bytes) and failure of the parts below", "why_tests_cant": "records with arbitrary counts, times and floats and arbitrary form values cannot be enumerated; a single infinity, NaN or broken string makes the answer unreadable", "anchors": ["api/server.go: serveHTTP, serveRender, serveQuery", "merge/merger.go: Push, Finish, completed, emit", "api/common.go: getInt"]}
{"id": "C93", "title": "The mapped files of a database are bounded", "statement": "A database keeps at most Handles data files open between uses: at any time the data files mapped into the process are exactly those kept by the handle cache and those being used by callers, never more than the Handles option plus the files in use, whichever system calls other than munmap fail; every file kept or in use is mapped, at an address of its own, and no descriptor stays open, whichever calls fail; and closing the cache when nothing is in use leaves no mapping.", "quantifier": "every sequence of acquire, release, evict, sync and close operations of callers that release and sync only what they hold, every Handles option, random eviction and pattern of failing system calls", "why_tests_cant": "needs every interleaving of uses, random evictions and failures; a leaked or prematurely unmapped file shows only as a crash or exhaustion much later", "anchors": ["database/files/file_cache.go: acquireFile, releaseFile, evictFile, Close", "database/files/cache.go: Put, Take, TakeAll", "database/files/file.go: createFile, openFile, Close", "database/files/internal/system/mmap.go: Mmap, Munmap"]}
