{"id": "C01", "title": "File-table entry code: encode/decode identity and single-bit correction", "statement": "Every 12-byte payload, encoded into a 13-byte SECDED block and then read back either unmodified or with any one of its 104 bits flipped, decodes to exactly the original payload.", "quantifier": "all 2^96 payloads x (no error or any of the 104 bit positions)", "why_tests_cant": "2^96 payloads x 104 positions cannot be enumerated.", "anchors": ["vlfs/src/fs/hamming.rs: hamming_encode, hamming_decode"]}
{"id": "C02", "title": "File-table entry code: every double-bit error is detected", "statement": "If any two distinct bits of an encoded 13-byte block are flipped, decoding reports an error (it never returns a payload, right or wrong).", "quantifier": "all payloads x all pairs of distinct bit positions", "why_tests_cant": "2^96 payloads x 5356 pairs.", "anchors": ["vlfs/src/fs/hamming.rs: hamming_decode"]}
{"id": "C03", "title": "Erased or zeroed flash is never mistaken for a file entry", "statement": "A 13-byte block read from erased flash (all 0xFF) or zeroed flash is reported as an error, even after any single further bit flip; so an interrupted table write cannot fabricate a file entry.", "quantifier": "the erased/zero block and each of its one-bit neighbours", "why_tests_cant": "the user relies on it at every crash point of a table write", "anchors": ["vlfs/src/fs/hamming.rs: hamming_decode", "vlfs/src/fs/allocation_table.rs: FileEntry::deserialize"]}
{"id": "C04", "title": "Quadruplicated page fields survive corruption of any one copy", "statement": "A 16-bit value stored as four copies (sector length, next-sector index) is recovered exactly whenever at most one copy has been changed arbitrarily, and also when two copies are changed to different values; a result is absent only if no two copies agree, and any result returned is held by at least two copies.", "quantifier": "all 16-bit values and all corruptions", "why_tests_cant": "2^64 combinations", "anchors": ["vlfs/src/fs/utils.rs: find_most_common, copy_from_u16x4", "vlfs/src/fs/writer.rs", "vlfs/src/fs/reader.rs"]}
{"id": "C05", "title": "File entries and table headers survive a write/read round trip", "statement": "For every file id, type and first-sector (present or absent), the 13-byte stored entry decodes to the same entry; for every version and sequence number the 12-byte header decodes to the same header.", "quantifier": "all u64 ids, u16 types, optional u16 sectors other than the reserved none value, u64 sequence numbers", "why_tests_cant": "unbounded input space", "anchors": ["vlfs/src/fs/allocation_table.rs: FileEntry, AllocationTableHeader"]}
{"id": "C06", "title": "Directory updates are atomic across power loss", "statement": "If power is lost at any point while a directory change (create, remove, set-first-sector) is being written, the next init sees either the complete old directory or the complete new one: never a mixture, a truncated list or an empty directory.", "quantifier": "every directory content within capacity, every change, every prefix of the flash operations performed by the change", "why_tests_cant": "crash points x directory contents are unbounded", "anchors": ["vlfs/src/fs/at_builder.rs: ATBuilder", "vlfs/src/fs/allocation_table.rs: read_latest_allocation_table, create_file", "vlfs/src/fs/init.rs: init"]}
{"id": "C07", "title": "A completed directory update is durable and becomes the current one", "statement": "After a directory change returns Ok, re-initialising from flash yields exactly the directory the change produced, for any number of consecutive changes (the four table slots wrap around).", "quantifier": "all sequences of committed changes", "why_tests_cant": "unbounded histories, slot wrap-around", "anchors": ["vlfs/src/fs/at_builder.rs: commit", "vlfs/src/fs/allocation_table.rs: read_latest_allocation_table"]}
{"id": "C08", "title": "File ids are never reused", "statement": "Along any history of create, remove and reboot, each created file's id is strictly greater than every id handed out before, even if the newest file was deleted before the reboot.", "quantifier": "all histories of create/remove/reboot (crash at any step)", "why_tests_cant": "unbounded histories", "anchors": ["vlfs/src/fs/at_builder.rs: get_new_file_id, commit", "vlfs/src/fs/allocation_table.rs: create_file, AllocationTableFooter"]}
{"id": "C09", "title": "File lookup by id is exact", "statement": "Looking up an id in the stored directory finds the entry with that id if it is listed and reports does-not-exist otherwise, whatever the number of files.", "quantifier": "all directories with strictly increasing ids, all ids", "why_tests_cant": "binary search boundary cases over unbounded tables", "anchors": ["vlfs/src/fs/allocation_table.rs: find_file_entry"]}
{"id": "C10", "title": "Directory iteration lists exactly the matching files in creation order", "statement": "files_iter with a filter yields every stored file whose type matches, exactly once, in increasing id order, and nothing else.", "quantifier": "all directories and filters", "why_tests_cant": "unbounded directories", "anchors": ["vlfs/src/fs/iter.rs: FilesIterator", "vlfs/src/fs/mod.rs"]}
{"id": "C11", "title": "Concurrent directory iteration is monotone and complete for surviving files", "statement": "Whatever directory changes happen between calls to next(), a concurrent iterator returns strictly increasing ids; every id it returns was in the directory at that moment; and any matching file that exists throughout the whole iteration is returned.", "quantifier": "all schedules of directory changes between calls", "why_tests_cant": "unbounded interleavings", "anchors": ["vlfs/src/fs/iter.rs: ConcurrentFilesIterator"]}
{"id": "C12", "title": "The directory never outgrows its table slot", "statement": "Creating files never writes outside the 32 KiB table slot being built, so older tables and file data stay intact.", "quantifier": "every number of files", "why_tests_cant": "needs thousands of creations; the limit constant exists but nothing enforces it", "anchors": ["vlfs/src/fs/mod.rs: MAX_FILES", "vlfs/src/fs/at_builder.rs: write, commit"]}
{"id": "C13", "title": "Free-space bookkeeping is exact", "statement": "After any sequence of claims and returns, the reported free count equals the number of free 4K sectors, and a 32K/64K block is marked free exactly when all its sectors are free.", "quantifier": "all sequences of set-used/set-unused on distinct sectors", "why_tests_cant": "unbounded histories over 16384 sectors", "anchors": ["vlfs/src/fs/sector_management.rs: SectorMap"]}
{"id": "C14", "title": "A sector is never handed out twice", "statement": "Along any history of sector claims and returns, a claimed sector is always in the data region, was free before the claim, and is not handed out again until returned.", "quantifier": "all histories of claims/returns and all random starting points", "why_tests_cant": "unbounded histories, randomised allocator", "anchors": ["vlfs/src/fs/sector_management.rs: claim_avaliable_sector_and_erase, claim_erase_region, return_sector"]}
{"id": "C15", "title": "Every sector handed out has been erased", "statement": "A claimed sector reads as all 0xFF at the moment it is handed out, and nothing that is in use is ever erased by the allocator.", "quantifier": "all histories", "why_tests_cant": "unbounded histories", "anchors": ["vlfs/src/fs/sector_management.rs: erase, claim_avaliable_sector_and_erase"]}
{"id": "C16", "title": "Allocation fails only when the device is full", "statement": "A claim returns DeviceFull only if no free sector exists at all.", "quantifier": "all allocator states, all random starting points", "why_tests_cant": "search wrap-around over 3 granularities", "anchors": ["vlfs/src/fs/sector_management.rs: claim_erase_region"]}
{"id": "C17", "title": "What is written is what is read", "statement": "For any byte string written to a new file with any partition into extend calls and any flushes in between, then closed, reading the file with any sequence of buffer sizes returns exactly that byte string and then end of file, with no corruption reported.", "quantifier": "all byte strings, all chunkings, all flush points, all read buffer sizes", "why_tests_cant": "page/sector boundary combinations are unbounded", "anchors": ["vlfs/src/fs/writer.rs: FileWriter", "vlfs/src/fs/reader.rs: FileReader"]}
{"id": "C18", "title": "Appending keeps previously written data", "statement": "Re-opening a closed file for writing and writing more bytes yields the old content followed by the new content.", "quantifier": "all old contents and appended contents", "why_tests_cant": "unbounded", "anchors": ["vlfs/src/fs/writer.rs: open_file_for_write, new_existing"]}
{"id": "C19", "title": "Flushed data survives power loss during later writes", "statement": "Once flush returns, if power is lost at any later point of continued writing to the file, reading it after reboot returns a prefix of what was written that includes everything flushed.", "quantifier": "all contents, all crash points after a flush", "why_tests_cant": "crash points x contents", "anchors": ["vlfs/src/fs/writer.rs: flush, _flush", "vlfs/src/fs/reader.rs: read_next_page"]}
{"id": "C20", "title": "Data loss on power failure is bounded", "statement": "At most the bytes written after the last flush or completed sector are lost, which is never more than one sector of data (4016 bytes).", "quantifier": "all contents and crash points", "why_tests_cant": "crash points x contents", "anchors": ["vlfs/src/fs/writer.rs", "vlfs/README.md"]}
{"id": "C21", "title": "Reported file size equals readable bytes", "statement": "get_file_size returns exactly the number of bytes a reader will return for the file.", "quantifier": "all files produced by any write history", "why_tests_cant": "unbounded", "anchors": ["vlfs/src/fs/mod.rs: get_file_size", "vlfs/src/fs/reader.rs"]}
{"id": "C22", "title": "Corrupted pages are never returned as good data", "statement": "If a page's stored checksum does not match the checksum of the data read, the read reports CorruptedPage; data is reported good only if its checksum matched.", "quantifier": "all flash contents (arbitrary corruption)", "why_tests_cant": "2^2048 pages", "anchors": ["vlfs/src/fs/reader.rs: read_next_page, read_slice"]}
{"id": "C23", "title": "Removing a file frees exactly its own sectors", "statement": "remove_file makes the file disappear, returns precisely the sectors of that file's chain to the free pool, and leaves every other file's directory entry and content unchanged.", "quantifier": "all file systems and files", "why_tests_cant": "unbounded", "anchors": ["vlfs/src/fs/mod.rs: remove_file", "vlfs/src/fs/at_builder.rs: release_file_sectors"]}
{"id": "C24", "title": "Files in use are protected", "statement": "While a file is opened for read or write through the API, removing it or opening it again is refused with FileInUse, and bulk removal skips it; closing it lifts the protection.", "quantifier": "all histories of open/close/remove, for every way of opening a file", "why_tests_cant": "unbounded histories", "anchors": ["vlfs/src/fs/allocation_table.rs: mark_file_opened, mark_file_closed", "vlfs/src/fs/mod.rs", "vlfs/src/fs/writer.rs: create_file_and_open_for_write"]}
{"id": "C25", "title": "A failed open leaves no trace", "statement": "If opening a file for write fails, the file is not left marked as open (so it can be opened or removed later).", "quantifier": "all failure causes", "why_tests_cant": "error paths x states", "anchors": ["vlfs/src/fs/writer.rs: open_file_for_write"]}
{"id": "C26", "title": "Reboot reconstructs the free-sector map", "statement": "After init, a data sector is marked used exactly when it belongs to the chain of some file in the directory.", "quantifier": "all well-formed flash contents", "why_tests_cant": "unbounded", "anchors": ["vlfs/src/fs/init.rs: read_free_sectors"]}
{"id": "C27", "title": "Reader/writer lock: mutual exclusion", "statement": "At no time does a writer hold the lock together with any reader or another writer.", "quantifier": "all schedules of acquire/poll/cancel/release by any number of tasks", "why_tests_cant": "interleavings", "anchors": ["vlfs/src/utils/rwlock.rs: RwLock"]}
{"id": "C28", "title": "Reader/writer lock: no lost wake-up", "statement": "If the lock is free and no acquisition is granted, no task stays blocked forever: every waiting task has a registered waker or will be polled.", "quantifier": "all schedules", "why_tests_cant": "interleavings including cancellation", "anchors": ["vlfs/src/utils/rwlock.rs: read, write"]}
{"id": "C29", "title": "File-system operations do not deadlock each other", "statement": "Concurrent VLFS operations acquire the internal locks in a consistent order, so a set of running operations can always make progress.", "quantifier": "all interleavings of operations", "why_tests_cant": "interleavings", "anchors": ["vlfs/src/fs/writer.rs", "vlfs/src/fs/at_builder.rs", "vlfs/src/fs/sector_management.rs", "vlfs/src/fs/allocation_table.rs"]}
{"id": "C30", "title": "Background erase is invisible to readers and writers", "statement": "With the managed-erase wrapper, any interleaving of background erases with reads and writes gives the same bytes as if each erase had completed immediately.", "quantifier": "all operation sequences and suspend points", "why_tests_cant": "interleavings", "anchors": ["vlfs/src/flash/managed_erase_flash.rs", "vlfs/src/flash/async_erase_flash.rs"]}
{"id": "C31", "title": "Bit-packed stream round trip", "statement": "Any sequence of values of any bit widths written through the bit writer, drained to bytes at arbitrary moments, and replenished into the bit reader in arbitrary chunks is read back as the same sequence.", "quantifier": "all value sequences, widths and drain/replenish points", "why_tests_cant": "bit offsets x schedules", "anchors": ["firmware-common/src/common/delta_logger/bitslice_serialize.rs", "firmware-common/src/common/delta_logger/bitslice_primitive.rs"]}
{"id": "C32", "title": "Delta log round trip", "statement": "For every sequence of log, log-unix-time and flush calls, decoding the produced byte stream yields the sequence of accepted entries, in order, each sensor reading being either bit-exact (full) or the value reconstructed from the quantised delta.", "quantifier": "all call sequences", "why_tests_cant": "state-dependent encoding over unbounded histories", "anchors": ["firmware-common/src/common/delta_logger/delta_logger.rs: DeltaLogger, DeltaLoggerReader", "firmware-common/src/common/delta_logger/delta_factory.rs"]}
{"id": "C33", "title": "Delta log error does not accumulate", "statement": "Every decoded value differs from the value logged by at most one quantisation step, no matter how many deltas preceded it.", "quantifier": "all sequences of readings", "why_tests_cant": "accumulation over unbounded sequences", "anchors": ["firmware-common/src/common/delta_logger/delta_factory.rs", "firmware-common/src/common/fixed_point.rs"]}
{"id": "C34", "title": "Fixed-point quantisation honours its declared error", "statement": "Encoding a value inside [min,max] and decoding it gives a value within the declared maximum error; values outside the range are rejected; the code fits the declared number of bits.", "quantifier": "all reals in range, all factory parameters", "why_tests_cant": "continuous domain", "anchors": ["firmware-common/src/common/fixed_point.rs", "calculate-required-bits/src/lib.rs"]}
{"id": "C35", "title": "Logging an entry never overflows the logger's buffer", "statement": "Any log / log-unix-time call on a delta logger fits in its internal bit buffer.", "quantifier": "all sensor data sizes and all buffer fill states", "why_tests_cant": "depends on type sizes and residual bits", "anchors": ["firmware-common/src/common/delta_logger/delta_logger.rs"]}
{"id": "C36", "title": "A log cut short by power loss decodes to a prefix", "statement": "Reading any prefix of a log file yields a prefix of the entries that were logged, then end of file: never a wrong entry.", "quantifier": "all logs, all truncation points", "why_tests_cant": "truncation points x contents", "anchors": ["firmware-common/src/common/delta_logger/delta_logger.rs: DeltaLoggerReader"]}
{"id": "C37", "title": "Ring log retention", "statement": "A ring logger never keeps more than the configured number of segment files, and it deletes only the oldest segment of its own type.", "quantifier": "all histories of segment rollovers and reboots", "why_tests_cant": "unbounded histories", "anchors": ["firmware-common/src/common/delta_logger/ring_file_writer.rs", "firmware-common/src/common/delta_logger/ring_delta_logger.rs"]}
{"id": "C38", "title": "Radio packets round trip", "statement": "Every uplink packet built and parsed by the other side with the same key gives the same packet; the same for acks and telemetry (up to the declared quantisation).", "quantifier": "all packets, keys", "why_tests_cant": "unbounded inputs", "anchors": ["firmware-common/src/common/vlp/packet_builder.rs", "firmware-common/src/common/vlp/packet.rs", "firmware-common/src/common/vlp/telemetry_packet.rs"]}
{"id": "C39", "title": "Radio framing arithmetic is self-inverse and fits the radio buffer", "statement": "The receiver derives the parity length from the received length and always recovers the sender's split; every packet fits in the 49-byte radio buffer.", "quantifier": "all payload lengths", "why_tests_cant": "off-by-one over integer division", "anchors": ["firmware-common/src/common/vlp/packet_builder.rs"]}
{"id": "C40", "title": "Malformed radio packets are rejected, not acted upon", "statement": "Any received byte string either decodes to a packet that was validly framed or is rejected with an error; the receiver never panics.", "quantifier": "all byte strings up to the radio limit", "why_tests_cant": "2^392 strings", "anchors": ["firmware-common/src/common/vlp/packet_builder.rs", "firmware-common/src/common/vlp/packet.rs"]}
{"id": "C41", "title": "Recorded uplink commands cannot be replayed", "statement": "An uplink packet accepted once is not accepted again when the same radio bytes are received later.", "quantifier": "all packets and times", "why_tests_cant": "temporal property", "anchors": ["firmware-common/src/common/vlp/packet_builder.rs: TIME_BASED_NONCE_ENABLED"]}
{"id": "C42", "title": "Flight phases advance in order", "statement": "The primary flight core only moves forward through armed, power ascend, coast, drogue, main, landed; it never skips ejection phases backwards and never returns to an earlier phase.", "quantifier": "all sensor and time sequences", "why_tests_cant": "unbounded sensor traces", "anchors": ["firmware-common/src/avionics/flight_core.rs: FlightCore::tick"]}
{"id": "C43", "title": "No ejection before apogee", "statement": "The primary core enters the drogue-chute phase only after it has been in coast, vertical speed has dropped to the apogee threshold, and (unless configured otherwise) minimum apogee has been reached; the main chute phase only after the drogue phase and below main altitude.", "quantifier": "all sensor and time sequences", "why_tests_cant": "unbounded traces", "anchors": ["firmware-common/src/avionics/flight_core.rs"]}
{"id": "C44", "title": "Backup core deploys in order, once, after its delays", "statement": "The backup core publishes drogue-deployed at most once and only after descent was detected and the drogue delay has elapsed, publishes main-deployed at most once and only afterwards and below the main altitude, and landed last.", "quantifier": "all sensor and time sequences", "why_tests_cant": "unbounded traces", "anchors": ["firmware-common/src/avionics/backup_flight_core.rs"]}
{"id": "C45", "title": "Manual-trigger core deploys in order after its delays", "statement": "The backup-backup core publishes nothing before the manual trigger; afterwards drogue, main and landed events each at most once, in order, and never earlier than the configured delays.", "quantifier": "all time sequences", "why_tests_cant": "unbounded traces", "anchors": ["firmware-common/src/avionics/backup_backup_flight_core.rs"]}
{"id": "C46", "title": "Deployment is announced when it happens", "statement": "Whenever the primary core commands a chute, subscribers receive a ChuteDeployed event (as they do from the backup cores).", "quantifier": "all traces", "why_tests_cant": "unbounded traces", "anchors": ["firmware-common/src/avionics/flight_core.rs", "firmware-common/src/avionics/flight_core_event.rs"]}
{"id": "C47", "title": "Armed means both switches", "statement": "The rocket is reported armed exactly when software arming and the debounced hardware arming are both on; either going off disarms it.", "quantifier": "all sequences of switch changes", "why_tests_cant": "unbounded interleavings", "anchors": ["firmware-common/src/avionics/arming_state.rs", "firmware-common/src/common/debounced_signal.rs"]}
{"id": "C48", "title": "A pyro channel fires at most once per boot, for a bounded pulse, only on its deploy event", "statement": "Each pyro output is enabled only after a deploy command for its chute, is disabled again 3 s later, and is never enabled a second time until reboot.", "quantifier": "all event sequences", "why_tests_cant": "unbounded traces", "anchors": ["firmware-common/src/avionics/mod.rs"]}
{"id": "C49", "title": "Debouncing", "statement": "A debounced input changes its published value only after the raw input has held the new value for the whole debounce interval; glitches shorter than that are invisible.", "quantifier": "all input traces and timings", "why_tests_cant": "timing traces", "anchors": ["firmware-common/src/common/debounced_signal.rs"]}
{"id": "C50", "title": "Zero-copy channel is a lossless FIFO", "statement": "Values sent through the channel are received exactly once, in order; a sender that finds it full fails or waits and overwrites nothing that is unread.", "quantifier": "all interleavings of send/receive", "why_tests_cant": "interleavings", "anchors": ["firmware-common/src/common/zerocopy_channel.rs"]}
{"id": "C51", "title": "Console link resynchronises after any garbage", "statement": "Whatever bytes were sent before (including a partial request), after the client's reset sequence the server is back at a command boundary and answers the reset command.", "quantifier": "all byte histories", "why_tests_cant": "unbounded byte strings", "anchors": ["firmware-common/src/common/console/create_rpc.rs"]}
{"id": "C52", "title": "Console requests with a bad checksum have no effect", "statement": "A request whose checksum does not match never runs its handler, and a request with a matching checksum runs its handler exactly once with the transmitted arguments.", "quantifier": "all byte strings", "why_tests_cant": "unbounded", "anchors": ["firmware-common/src/common/console/create_rpc.rs"]}
{"id": "C53", "title": "Downloaded file equals stored file", "statement": "Pulling a file over the console reproduces the file's bytes exactly, for any file size.", "quantifier": "all files", "why_tests_cant": "chunk boundaries", "anchors": ["vl-host-lib/src/common/pull_file.rs", "firmware-common/src/common/console/vl_rpc.rs: ReadFile"]}
{"id": "C54", "title": "Configuration updates are atomic", "statement": "After writing a configuration, reading it returns the new value; if power is lost during the write, reading returns either the old or the new value.", "quantifier": "all crash points", "why_tests_cant": "crash points", "anchors": ["firmware-common/src/common/config_file.rs"]}
{"id": "C55", "title": "CAN identifiers and messages round trip", "statement": "Packing and unpacking a CAN identifier or message preserves all fields; identifiers order on the bus by priority first.", "quantifier": "all field values", "why_tests_cant": "large input space", "anchors": ["firmware-common/src/common/can_bus/id.rs", "firmware-common/src/common/can_bus/messages.rs"]}
{"id": "C56", "title": "Slave event queue", "statement": "The control-protocol slave delivers events in order, keeping the newest five; events are lost only when more than five are pending, and then the oldest ones.", "quantifier": "all sequences of push/poll", "why_tests_cant": "unbounded histories", "anchors": ["vl8-ctrl-protocol/src/slave.rs"]}
{"id": "C57", "title": "Control-protocol frames round trip and bad frames are rejected", "statement": "decode(encode(p)) = p for every package; a frame whose length byte disagrees with its length, or whose id is unknown, is rejected.", "quantifier": "all packages, all byte strings", "why_tests_cant": "input space", "anchors": ["vl8-ctrl-protocol/src/codec.rs"]}
{"id": "C58", "title": "GPS sentence framing is independent of UART chunking", "statement": "For a stream of well-formed sentences, the sentences handed to the parser are the same however the bytes are split into reads.", "quantifier": "all sentence streams, all chunkings", "why_tests_cant": "chunkings", "anchors": ["firmware-common/src/driver/uart_gps.rs"]}
{"id": "C59", "title": "GPS delta compression reproduces timestamps and satellite counts", "statement": "If a GPS reading is stored as a delta, decoding gives back the same integer timestamp and satellite count.", "quantifier": "all pairs of readings", "why_tests_cant": "input space", "anchors": ["firmware-common/src/driver/gps.rs: Deltable for GPSData"]}
{"id": "C60", "title": "NMEA sentences are accepted only with a valid checksum and never crash the parser", "statement": "parse returns a message only if the XOR checksum matches; it never panics on any input string.", "quantifier": "all strings up to 84 bytes", "why_tests_cant": "input space", "anchors": ["tiny-nmea/src/lib.rs"]}
{"id": "C61", "title": "Boot-time to unix-time conversion", "statement": "The lookup returns the recorded unix time at recorded points and linear interpolation between the two neighbouring points otherwise, and is monotone when the recorded points are.", "quantifier": "all point sets and queries", "why_tests_cant": "input space", "anchors": ["vl-host-lib/src/common/unix_timestamp_lut.rs"]}
{"id": "C62", "title": "Moving averages equal the mean of the last N samples", "statement": "After any sequence of samples, the reported average is the arithmetic mean of the most recent min(n, window) samples.", "quantifier": "all sample sequences and window sizes", "why_tests_cant": "unbounded", "anchors": ["firmware-common/src/common/moving_average.rs", "ferraris-calibration/src/moving_average.rs"]}
{"id": "C63", "title": "Periodic ticker does not drift", "statement": "The k-th tick of a periodic ticker is never earlier than start + k*interval, and lateness of one tick does not delay later ticks.", "quantifier": "all timings", "why_tests_cant": "timing traces", "anchors": ["firmware-common/src/common/ticker.rs"]}
{"id": "C64", "title": "Distinct log kinds have distinct file types", "statement": "No two of the file types the firmware stores on one device share the same numeric type, so selecting files by type never mixes different logs.", "quantifier": "all pairs of declared file types of one device", "why_tests_cant": "a pairwise property of declarations spread over modules; no test compares them", "anchors": ["firmware-common: common/file_types.rs", "avionics/mod.rs"]}
{"id": "C65", "title": "A power loss cannot exhaust the file ids", "statement": "Creating a file never fails for lack of file ids: ids grow by one per created file, so create_file cannot panic before about 2^64 files or directory changes, whatever power losses happened.", "quantifier": "all histories of calls, power losses (at any byte) and reboots", "why_tests_cant": "needs a power loss inside one particular byte of a directory footer", "anchors": ["vlfs/src/fs/allocation_table.rs: AllocationTableFooter", "vlfs/src/fs/at_builder.rs: new_id", "vlfs/src/fs/init.rs"]}
{"id": "C66", "title": "FIFO mutex: exclusion and wake-up", "statement": "At most one task holds the FIFO mutex at a time, and when it is free some waiting task has been told to run.", "quantifier": "all schedules of lock/poll/cancel/release by any number of tasks", "why_tests_cant": "interleavings including cancellation and more waiters than queue slots", "anchors": ["vlfs/src/utils/fair_mutex.rs: FairMutex"]}
{"id": "C67", "title": "Rollover never deletes the segment being written", "statement": "When a ring logger starts a new segment, the segment it was just writing stays on the device.", "quantifier": "all histories of rollovers, reboots, power losses and activity of other file-system users", "why_tests_cant": "unbounded interleaved histories", "anchors": ["firmware-common/src/common/delta_logger/ring_delta_logger.rs: create_new_segment", "firmware-common/src/common/delta_logger/ring_file_writer.rs"]}
{"id": "C68", "title": "Radio packets survive byte errors", "statement": "A radio packet received with at most half as many wrong bytes as it has parity bytes (1 for commands and acks, 4 for telemetry) still gives exactly the packet sent.", "quantifier": "all packets, keys, keystreams, builder states and error patterns", "why_tests_cant": "all error patterns on all packets", "anchors": ["firmware-common/src/common/vlp/packet_builder.rs"]}
{"id": "C69", "title": "No deployment unless armed", "statement": "No flight core publishes anything, and no pyro output is enabled, unless at some earlier moment both the software and the debounced hardware arming were on; once a disarm has been processed nothing is published until the rocket is armed again.", "quantifier": "all interleavings of switch changes, sensor readings, triggers and task polls", "why_tests_cant": "unbounded interleavings", "anchors": ["firmware-common/src/avionics/mod.rs: setup_flight_core_fut, flight_core_tick_fut, pyro_main_ctrl_fut", "firmware-common/src/avionics/arming_state.rs"]}
{"id": "C70", "title": "A published deployment fires its channel", "statement": "When a core publishes a chute deployment and the channel has not been used, the pyro output is enabled when its task next runs.", "quantifier": "all event sequences and schedules", "why_tests_cant": "depends on scheduling and queue overflow", "anchors": ["firmware-common/src/avionics/flight_core_event_channel.rs", "firmware-common/src/avionics/mod.rs: pyro_main_ctrl_fut"]}
{"id": "C71", "title": "In-memory calls return their own response", "statement": "A call made through the request/response channel returns the response the server computed for that very request.", "quantifier": "all interleavings of client and server steps", "why_tests_cant": "depends on the schedule and on where a call is abandoned", "anchors": ["firmware-common/src/common/rpc_channel.rs: RpcChannelClient::call"]}
{"id": "C72", "title": "A console call returns the handler's response", "statement": "On an idle link a console call runs its handler once and returns exactly the bytes of the handler's response; a response with a wrong checksum is never returned.", "quantifier": "all request tables, handlers, arguments and server states", "why_tests_cant": "ranges over all byte contents", "anchors": ["firmware-common/src/common/console/create_rpc.rs"]}
{"id": "C73", "title": "Removing one file reports exactly what happened", "statement": "Removing a file by id removes exactly that file when it exists and is not open; when it is open the call reports FileInUse, when it does not exist it reports FileDoesNotExist, and in both cases no file changes.", "quantifier": "all histories of the file system and all ids", "why_tests_cant": "ranges over all reachable directories, histories and ids", "anchors": ["vlfs/src/fs/mod.rs: remove_file, remove_files"]}
{"id": "C74", "title": "Strain-gauge recording follows the CAN messages", "statement": "After any sequence of received frames the strain-gauge node records exactly when the last avionics status said armed and the last flight event was not a landing; a reset message resets it, and time messages set its clock reference.", "quantifier": "all frame sequences", "why_tests_cant": "unbounded message histories", "anchors": ["firmware-common/src/strain_gauges/mid_prio.rs: can_rx_fut"]}
{"id": "C75", "title": "Control-protocol answers belong to their requests", "statement": "A request of the flight computer to the power board is carried out at most five times, and when a pyro command is reported as acknowledged the board has carried it out; polled events are delivered.", "quantifier": "all patterns of lost, damaged and late messages", "why_tests_cant": "fault schedules", "anchors": ["vl8-ctrl-protocol/src/master.rs: request, pyro_ctrl, poll_event", "vl8-ctrl-protocol/src/slave.rs: next"]}
{"id": "C76", "title": "A command reported as sent was received by the rocket", "statement": "When the ground station's send(command) reports success, the rocket's radio client received that very command during that call (and handed it to the application unless its own radio reported an error); when it reports failure the rocket did not act on it.", "quantifier": "all interleavings of the two machines, all losses, noise and radio errors", "why_tests_cant": "two concurrent machines over a lossy medium: unboundedly many schedules", "anchors": ["firmware-common/src/common/vlp/downlink_client.rs: send, run", "firmware-common/src/common/vlp/uplink_client.rs: run", "firmware-common/src/gcm/mod.rs: gcm_main"]}
{"id": "C77", "title": "Sending a command always returns", "statement": "A call of the ground station's send returns, with an acknowledgement or a failure, after a bounded number of radio operations.", "quantifier": "all schedules and radio faults", "why_tests_cant": "liveness over all fault schedules", "anchors": ["firmware-common/src/common/vlp/downlink_client.rs: run"]}
{"id": "C78", "title": "Commands are never invented and are carried out at most once", "statement": "Every command the rocket's application receives was sent by the ground station before, and each sent command is delivered at most once.", "quantifier": "all schedules, losses and retries", "why_tests_cant": "unbounded histories of two machines", "anchors": ["firmware-common/src/common/vlp/uplink_client.rs: run", "firmware-common/src/common/vlp/downlink_client.rs: run"]}
{"id": "C79", "title": "Vertical speed cannot be thrown into a fall by the barometer", "statement": "Whatever pressure readings arrive, the vertical speed the barometric filter answers never falls by more than 45 m/s per second between any two readings; jumps above 3000 m/s never reach its low-pass stage, and while one is ignored the speed answered stays what it was; hence the backup flight core cannot take a flight it saw rising at v1 for a descent before (v1+20)/45 seconds have passed, nor within 444 ms of its first reading.", "quantifier": "all sequences of readings with increasing times, all low-pass filters", "why_tests_cant": "any sequence of pressure disturbances", "anchors": ["firmware-common/src/avionics/vertical_speed_filter.rs: VerticalSpeedFilter::feed", "firmware-common/src/avionics/backup_flight_core.rs: tick"]}
{"id": "C80", "title": "Pressure spikes are ignored for exactly half a second", "statement": "The baro filter answers 'ignore, use the held reading' for a reading exactly when some rise faster than 3000 Pa/s ended less than 500 ms before it; the held reading is the latest such rise's upper end; otherwise it answers the reading itself.", "quantifier": "all sequences of readings with increasing, non-negative times", "why_tests_cant": "overlapping spikes at arbitrary spacing", "anchors": ["firmware-common/src/avionics/baro_reading_filter.rs: BaroReadingFilter::feed"]}
{"id": "C81", "title": "The maxima in telemetry are the maxima of the flight", "statement": "After any sequence of updates the four maxima (altitude, backup altitude, air speed, backup air speed) are the greatest of 0 and the non-NaN values their fields had; they never decrease; a packet can be made unless battery, temperature, altitude or air speed is NaN at that moment; and what the ground station reads from a packet received intact is within the declared error of those values clamped to the declared range.", "quantifier": "all update sequences including NaN and infinite values, all radio states", "why_tests_cant": "unbounded histories of readings, NaN in any position", "anchors": ["firmware-common/src/common/vlp/telemetry_packet.rs: TelemetryPacketBuilder::{new,update,create_packet}"]}
{"id": "C82", "title": "The unix clock is right once it is ready", "statement": "If the GPS tells the time within its second and pulses at whole seconds, the clock, once ready, is never fast and slow by at most the stamping delay; announced times are those of the pulses; it becomes ready exactly when a pulse follows a time message by less than 800 ms; every task told to wait for it is woken by the pulse that makes it ready.", "quantifier": "all sequences of GPS messages, pulses and polls", "why_tests_cant": "all interleavings of messages, pulses and waiting tasks", "anchors": ["firmware-common/src/common/unix_clock.rs: UnixClockTask::run, UnixClock::{ready,wait_until_ready,convert_to_unix,now_ms}"]}
{"id": "C83", "title": "A registered waker is woken exactly once", "statement": "For every history of register and wake calls: register fails only if N other tasks are already registered since the last wake; wake wakes exactly the tasks registered since the last wake, each once.", "quantifier": "all N and all histories of calls", "why_tests_cant": "unbounded histories", "anchors": ["firmware-common/src/common/multi_waker.rs: MultiWakerRegistration::{register,wake}", "vl8-ctrl-protocol/src/multi_waker.rs"]}
{"id": "C84", "title": "A log of enum records reads back, cut anywhere", "statement": "A file written record by record and cut at any byte (power loss), read through a reader that returns any piece sizes, yields exactly the records that are whole, in order, then ends; an unknown record number ends the log silently.", "quantifier": "all record sequences, all cut points, all read piece sizes, all fixed-size codecs", "why_tests_cant": "all cut points and chunkings", "anchors": ["firmware-common/src/common/serialized_enum.rs: create_serialized_enum!", "vl-host-lib/src/common/parse_serialized_enums.rs"]}
{"id": "C85", "title": "Strain-gauge files are complete and dated", "statement": "Whatever the interleaving of readings, time messages and file rotation, every reading is stored once and in order; the first reading after a time message, and the first after a rotation, follow the latest time in the file; every file begins with the time once known; the host dates a file's readings exactly when it holds two times.", "quantifier": "all interleavings of readings, time messages and rotation steps", "why_tests_cant": "races between the rotating and the storing task", "anchors": ["firmware-common/src/strain_gauges/mid_prio.rs: sg_mid_prio_main (store_sg_fut)", "firmware-common/src/common/delta_logger/ring_file_writer.rs: get_writer, create_new_segment", "vl-host-lib/src/ozys/parse_sg_data.rs: parse_sg_data"]}
{"id": "C86", "title": "The delete-logs command deletes logs and nothing else", "statement": "Carried out in any reachable state, the command leaves every settings file (device config, calibration, upright vectors, flight profile) and every open file exactly as it was, deletes every finished flight log, and invents nothing; if power is lost meanwhile, settings and open files are still intact.", "quantifier": "all reachable file-system states, all crash points", "why_tests_cant": "all states and crash points", "anchors": ["firmware-common/src/avionics/mod.rs: DeleteLogsPacket", "firmware-common/src/common/file_types.rs", "vlfs/src/fs.rs: remove_files"]}
{"id": "C87", "title": "Buffered logger: order, freshness, no silent loss unless full", "statement": "For every interleaving of log calls, flushes and runner steps, the readings handed to the wrapped logger followed by those still waiting are an in-order part of the readings logged since the runner started; the newest CAP readings are always among them; if no reading arrived while CAP readings waited, none is missing. Readings logged before the runner starts are answered Ok(true) and never delivered.", "quantifier": "all interleavings of log, flush, cancel and runner steps, all capacities >= 1", "why_tests_cant": "the schedule between producer and runner is unbounded and nondeterministic", "anchors": ["firmware-common/src/common/delta_logger/buffered_logger.rs: BufferedLogger, BufferedLoggerRunner::run"]}
{"id": "C88", "title": "BufferedLogger::flush never completes", "statement": "No call of BufferedLogger::flush ever returns, in any schedule: the runner flushes the wrapped logger but never sends the response the caller awaits. (The flush itself does reach the wrapped logger after every waiting reading.)", "quantifier": "all schedules", "why_tests_cant": "non-termination cannot be observed by a test", "anchors": ["firmware-common/src/common/delta_logger/buffered_logger.rs: flush, run", "firmware-common/src/common/rpc_channel.rs: call"]}
{"id": "C89", "title": "Closing a buffered logger drains it", "statement": "After into_inner is called on a running buffered logger, whatever happens in between, after at most waiting+5 runner steps every waiting reading has been handed over in order, the wrapped logger has been flushed last, the runner has ended and into_inner gets the logger. Calling into_inner before the runner starts makes the runner panic.", "quantifier": "all histories before and all interleavings after the call", "why_tests_cant": "every crash of order between two tasks matters", "anchors": ["firmware-common/src/common/delta_logger/buffered_logger.rs: into_inner, run"]}
{"id": "C90", "title": "Buzzer tones", "statement": "Tones are played in the order requested, each for its whole duration and silence before the next starts; at most ten wait, and only tones older than the newest ten can be skipped.", "quantifier": "all sequences of requests and all polling times", "why_tests_cant": "unbounded interleavings of requests and playback", "anchors": ["firmware-common/src/common/buzzer_queue.rs"]}
{"id": "C91", "title": "Merged logger", "statement": "Two merged loggers each receive every call, in order, exactly as if alone, whatever the other one answers; the merged answer is Ok only if both succeed (logged = either logged), otherwise it names the failing logger(s).", "quantifier": "all pairs of loggers, all call sequences", "why_tests_cant": "ranges over every logger behaviour", "anchors": ["firmware-common/src/common/delta_logger/merged_logger.rs"]}
{"id": "C92", "title": "Pyro continuity monitoring", "statement": "Each continuity field of the telemetry is the present continuity of the pyro channel the flight profile names for it, and monitoring never panics. (For pyros 1 and 2 this is so for every schedule. The code reads pyro 3 through the input of pyro 2: a profile with pyros 2 and 3 panics as soon as both monitors run, and with pyros 1 and 3 the field shows channel 2; the pairs that do not panic are exactly those with one pyro 1.)", "quantifier": "all pyro selections, all schedules of the two monitors, all changes of the channels", "why_tests_cant": "depends on the interleaving of two tasks for every selection", "anchors": ["firmware-common/src/common/pyro_macro.rs: pyro!", "firmware-common/src/avionics/mod.rs: pyro_main_cont_fut, pyro_drogue_cont_fut", "firmware-common/src/common/vl_device_manager.rs: claim_devices!"]}
{"id": "C93", "title": "Indicator patterns", "statement": "At every instant exactly one value is commanded for a blinking light and it is the one the pattern prescribes for that instant modulo its period; timer lateness bounded by the shortest segment never accumulates, however long it blinks. A pattern of zeros only never commands anything nor yields.", "quantifier": "all patterns, all repetition counts, all lateness sequences", "why_tests_cant": "unbounded running time", "anchors": ["firmware-common/src/common/indicator_controller.rs: run_single"]}
{"id": "C94", "title": "Ground-test firing", "statement": "In ground-test mode, whatever packets arrive: at most one pyro output is ever driven, the one named by the first packet, switched on 3 s after the command (plus timer lateness) and off 3 s later, and the logged fire time is the switch-on time. The firing does not depend on the arming state, and any other first packet makes the rocket ignore all later fire commands.", "quantifier": "all packet sequences, arming histories and timer latenesses", "why_tests_cant": "ranges over all received packet histories", "anchors": ["firmware-common/src/ground_test_avionics/mod.rs: vlp_rx_fut", "firmware-common/src/common/pyro_macro.rs"]}
{"id": "C95", "title": "Strain-gauge processing", "statement": "For every sequence of raw reads (213 samples per channel): processing never panics; every 40 raw reads give exactly one reading per channel, dated by the first of the 40, holding the low-pass filter's output at the end of each of the 40 reads, the filter having seen every sample since boot in order; the transform's input is the sum of exactly four frames of 2048 consecutive samples and is divided by 4; the published real-time value is the newest filtered sample of each channel; nothing of a reused slot's old content remains.", "quantifier": "all raw read sequences of any length, all filters, all previous slot contents", "why_tests_cant": "ranges over unbounded streams; the buffer/overflow indices must line up forever", "anchors": ["firmware-common/src/strain_gauges/low_prio.rs: SGChannelProcessor::process, process_fft, sg_low_prio_main", "firmware-common/src/strain_gauges/mod.rs"]}
{"id": "C96", "title": "Sensor delta logs are faithful in machine arithmetic", "statement": "For ADC, barometer, IMU and magnetometer readings logged through the delta factory with the firmware's own fixed-point factories, in IEEE f32 arithmetic: writing never panics, the log decodes to exactly as many readings, and each decoded field is finite and within the declared error of the field logged plus one f32 rounding of that same reading, however many deltas precede it.", "quantifier": "all sequences of finite readings", "why_tests_cant": "unbounded sequences over the whole float domain, with rounding at every step", "anchors": ["firmware-common/src/driver/adc.rs", "firmware-common/src/driver/barometer.rs", "firmware-common/src/driver/imu.rs", "firmware-common/src/driver/mag.rs", "firmware-common/src/common/delta_logger/delta_factory.rs", "firmware-common/src/common/fixed_point.rs"]}
{"id": "C97", "title": "GPS delta log is faithful", "statement": "A sequence of GPS readings logged through the delta factory decodes to as many readings with the same timestamps, satellite counts and missing fields, and with latitude, longitude, altitude and DOPs within their declared errors.", "quantifier": "all sequences of GPS readings", "why_tests_cant": "unbounded sequences, optional fields, two float formats", "anchors": ["firmware-common/src/driver/gps.rs", "firmware-common/src/common/delta_logger/delta_factory.rs"]}
{"id": "C98", "title": "Low-power mode keeps the rocket listening and silent", "statement": "After the rocket's radio client has heard a low-power command, it transmits no telemetry and returns to listening after every timeout, noise or radio error until it hears the command to leave the mode; outside that mode it listens only after transmitting telemetry, so an application that offers none cannot be reached.", "quantifier": "all interleavings of ground station, radio and rocket, all losses, noise and radio errors", "why_tests_cant": "the mode and the listening windows depend on the whole history of two machines over a lossy medium", "anchors": ["firmware-common/src/common/vlp/uplink_client.rs: VLPUplinkClient::run", "firmware-common/src/common/vlp/packet.rs: LowPowerModePacket"]}
{"id": "C99", "title": "IMU calibration recovers the sensor", "statement": "For every IMU whose accelerometer and gyroscope are distorted by invertible matrices, offset, and whose gyroscope leaks acceleration, and every calibration session done right (gravity along each of the six directions while not turning on average, and the expected angle about each axis), the Ferraris calibration succeeds, and applying it to any reading of that IMU returns the true acceleration and angular rate (in exact arithmetic). This needs as many static readings in the two directions of each axis: otherwise the gyroscope offset absorbs the leak of the imbalance and a device at rest reads a turn.", "quantifier": "all sensors (matrices, offsets, leak), all gravities and angles other than zero, all sessions with any number of readings per phase, all later readings", "why_tests_cant": "a test calibrates one simulated sensor with one recording; the claim is an algebraic identity over all invertible matrices and all recordings", "anchors": ["ferraris-calibration/src/calibrator_inner.rs:CalibratorInner::calculate", "ferraris-calibration/src/calibration_info.rs:CalibrationInfo::apply_calibration", "ferraris-calibration/src/calibrator.rs"]}
{"id": "C100", "title": "Interactive calibration follows its script and never stalls", "statement": "Whatever readings the interactive IMU calibrator is fed, the states it reports are the fixed script (waiting still, each axis up and down with its variance phase, the three rotations) from the beginning, in order, none skipped or repeated, and then exactly one of Success and Failure; each static and variance phase has more than 300 readings over more than 3 s and ends with the first such reading; the result is the calibration computed from exactly the readings fed while each state was shown, Success being reported if and only if it exists, and get_calibration_info returning it only then; a reading panics exactly after the end. From every reachable state a device whose angular rate stays constant long enough makes the calibration move on (even if it is turning: the stillness test only sees angular acceleration). Conversely it leaves a waiting state only when the mean of the 50 latest angular accelerations (between readings more than 100 ms apart, the last being the reading just given) is shorter than the threshold.", "quantifier": "all sequences of readings, all thresholds, gravities and angles, all reachable states", "why_tests_cant": "the order, the attribution of readings to phases and the absence of a stall must hold for every history of readings", "anchors": ["ferraris-calibration/src/interactive_calibrator.rs:InteractiveCalibrator::process", "ferraris-calibration/src/interactive_calibrator.rs:InteractiveCalibrator::wait_still", "ferraris-calibration/src/interactive_calibrator.rs:arm_process", "ferraris-calibration/src/moving_average.rs:SingleSumSMA"]}
{"id": "C101", "title": "A stored IMU calibration is read back bit for bit at every later start", "statement": "After any history of the file system with no calibration file in use, once the calibration program has stored a calibration, every later start of the device reads exactly that calibration (all 39 floating point numbers bit for bit), and the files of other types are unchanged. A power loss at any moment of the storing leaves the old calibration, none, or the new one, never a mixture; it should also never make the next start panic, but it does: in every storing there is a moment at which a power loss leaves an empty calibration file, and every later read panics.", "quantifier": "all calibrations, all histories of the file system, all power loss points during the storing, all restarts", "why_tests_cant": "a test writes and reads one calibration without interruption; the claim ranges over all histories and all crash points", "anchors": ["ferraris-calibration/src/calibration_info.rs:CalibrationInfo::serialize", "ferraris-calibration/src/calibration_info.rs:CalibrationInfo::deserialize", "firmware-common/src/common/console/programs/calibrate.rs:Calibrate::run", "firmware-common/src/common/imu_calibration_file.rs:read_imu_calibration_file"]}
{"id": "C102", "title": "Bytes streamed to flash come back in any pieces, with the same checksum", "statement": "Flash::read returns the bytes of the flash, of any length, and Flash::write programs exactly the bytes given. Bytes streamed through a FlashWriter to erased flash in any sequence of slices, then flushed, are returned by a FlashReader in any sequence of reads; no other byte of the flash changes; writer and reader report the same checksum, which depends only on the bytes and not on how they were cut, and covers all of them. (The code does not satisfy all of it: a read longer than 4096 bytes returns SPI command bytes in place of the last five data bytes of every 4096, unless the driver leaves the front of the buffer alone; a write that is not a multiple of 256 programs whole pages; and up to three bytes at the end of a stream are not covered by the checksum.)", "quantifier": "all flash contents, addresses, lengths, buffers, slice sequences and drivers (whatever they do to the five command bytes)", "why_tests_cant": "The tests use a memory flash that does not write the command into the buffer, and a few slice sizes; the claim ranges over all drivers and all ways of cutting a stream.", "anchors": ["vlfs/src/driver/flash.rs: Flash::read, Flash::write", "vlfs/src/flash/async_erase_flash.rs: AsyncEraseFlash::read, write", "vlfs/src/utils/flash_io.rs: FlashReader, FlashWriter", "vlfs/src/utils/u8_crc.rs: U8Crc::process", "vlfs/src/driver/crc.rs: Crc::calculate"]}
{"id": "C103", "title": "What a ground-station console is told", "statement": "Telemetry packets heard by the radio reach the consoles in the order they were heard, each at most once, and none is invented; a poll answers with the latest packet heard; the status answered to a command is the status of that command, statuses are handed out in the order the radio produced them, and every call returns. (The code does not satisfy all of it: a poll answers with the FIRST packet since the previous poll; when two consoles share the one request/response channel they can receive each other's status; and sending a command outside ground-control mode never returns.)", "quantifier": "all schedules of receptions, relays, polls, calls and answers, by any number of consoles, in and outside ground-control mode", "why_tests_cant": "No test runs the ground-station mode; the claim ranges over every interleaving of two consoles with the radio.", "anchors": ["firmware-common/src/gcm/mod.rs: gcm_main", "firmware-common/src/common/console/vl_rpc.rs: RPC 7, RPC 8", "firmware-common/src/vl_main.rs", "firmware-common/src/common/rpc_channel.rs", "firmware-common/src/common/vlp/downlink_client.rs"]}
{"id": "C104", "title": "Pulling all files of a type saves every one of them, exactly", "statement": "With no other task changing files, the host's list_files(t) returns exactly the ids of the files of type t (of all files when no type is given), oldest first; pull_files(t) saves each of them under its id with exactly the bytes it holds, reports success, and leaves the device's file system as it was; when it cannot get a file it says so and still saves the others. (The code does not satisfy the last part: the first file in use ends the transfer, later files are not saved though nothing uses them; and an unreadable directory entry is reported to the host as the end of the list.)", "quantifier": "all histories of calls, power losses and restarts before the transfer, all file types, numbers and sizes of files, all sets of open files", "why_tests_cant": "The listing and reading paths depend on everything that happened to the flash before; no test drives the console over more than one file.", "anchors": ["vl-host-lib/src/common/list_files.rs: list_files", "vl-host-lib/src/common/pull_file.rs: pull_files, pull_file", "firmware-common/src/common/console/vl_rpc.rs: RPC 2-6", "vlfs/src/fs/iter.rs: ConcurrentFilesIterator::next"]}
{"id": "C105", "title": "A device starts in the mode it was configured for, and only in a configured one", "statement": "Once SetDeviceConfig has been answered, every later start runs the mode of that configuration until another one is set, whatever other tasks do to other files and however often power is lost, also during a start. If setting a configuration is interrupted, the next start finds the previous one, the new one, or none, never a mixture or leftover bytes: no start ever runs a mode nobody asked for. With USB connected within the first half second only the ground-station mode starts. A configured device stays configured. (The last part is false: an interrupted SetDeviceConfig can leave the device halted without a configuration.)", "quantifier": "all lives of a device: sequences of starts, interrupted starts, file-system calls of other tasks (complete or cut by a power loss at any flash operation), resets, configurations set or interrupted; all configuration contents and USB connection times", "why_tests_cant": "The claim ranges over every crash point of every write in every history; the bytes are decoded without validation (archived_root), so one wrong read would be undefined behaviour.", "anchors": ["firmware-common/src/vl_main.rs: vl_main", "firmware-common/src/common/config_file.rs: ConfigFile::read, ConfigFile::write", "firmware-common/src/common/device_config.rs: DeviceModeConfig", "firmware-common/src/common/console/vl_rpc.rs: SetDeviceConfig, ResetDevice"]}
{"id": "C106", "title": "The host's CSV is the flight's log", "statement": "When the host converts the barometer and IMU logs of a flight into CSV, every reading the logger accepted becomes exactly one line, in order, with boot time, temperature, pressure, acceleration and rotation within the declared quantisation of what was logged; lines are dated by interpolating the unix times stored in the same file, all of a file's lines are dated or none; a file cut by a power loss gives the lines of a prefix; the conversion never panics. Every tier of the log is converted.", "quantifier": "all histories of readings (times up to 34 years, physical ranges), unix-time records and flushes, all read-chunk sizes in both passes, all cut points, all lists of files", "why_tests_cant": "The space is every history of floating-point readings times every chunking of the reads and every truncation point; rounding of deltas accumulates along the history.", "anchors": ["vl-host-lib/src/common/parse_delta_readings.rs", "vl-host-lib/src/common/readers.rs", "vl-host-lib/src/common/sensor_reading_csv_writer.rs", "vl-host-lib/src/vl/pull_flight_data.rs", "firmware-common/src/common/delta_logger/delta_logger.rs"]}
{"id": "C107", "title": "A file written by one task is not disturbed by what other tasks do to the file system", "statement": "A task opens a file and appends to it and flushes it, while other tasks create, remove, open, write, flush and close other files in between, successfully or not. When the task closes its file, the file holds what it held before followed by exactly the bytes the task wrote, in order. When power is lost at any moment - at rest or in the middle of a call of any task - the file found after the restart is a beginning of what the task wrote, contains everything up to the task's last successful flush, and lacks at most 4016 of the accepted bytes.", "quantifier": "all histories before the file is opened, all sequences of operations of the task, all interleaved legal calls of other tasks and their outcomes, all crash points of all calls", "why_tests_cant": "The number of interleavings and of crash points is unbounded; the tests of vlfs write one file at a time.", "anchors": ["vlfs/src/fs/writer.rs: FileWriter", "vlfs/src/fs/mod.rs: VLFS", "vlfs/src/fs/allocation_table.rs", "vlfs/src/fs/sector_management.rs"]}
{"id": "C108", "title": "The vacuum-chamber test records the deployments", "statement": "While the test program runs, its log file gets exactly the state changes the backup flight core announces, in the order of announcement, each once; each deployment beeps once and the indicator shows the last state. After a power loss at any moment, whatever other tasks do to other files, the file decodes to the records completed, or those and the one being written. (The first part is false: a state announced while an earlier record is being written is never logged if three more barometer readings, 15 ms, come in before the write and flush end.)", "quantifier": "all sequences of barometer readings, all flight profiles, all schedules of the reading, logging and indicator tasks, all interleaved file-system calls of other tasks, all crash points", "why_tests_cant": "Whether a state is lost depends on the schedule of three tasks and on how long flash writes take; there are no tests of this program.", "anchors": ["firmware-common/src/vacuum_test/mod.rs: vacuum_test_main", "firmware-common/src/avionics/backup_flight_core.rs: BackupFlightCore::tick", "firmware-common/src/common/serialized_enum.rs", "vlfs/src/fs/writer.rs: FileWriter"]}
{"id": "C109", "title": "Continuity, arming and GPS readings follow the power board's events", "statement": "What the flight computer's continuity, arming and GPS drivers return is always the last of: the answer to the driver's initial request, and the events reported for it since, taken in order and each at most once; no event reported for a driver is missed, every driver waiting for events is woken by the next one, and an NMEA sentence is passed on unchanged. (False in four ways: an event is overwritten when poll_event fetches the next one first; of two drivers on one channel only the first polled learns of an event; an eleventh task is never woken; a sentence with non-ASCII bytes can panic.)", "quantifier": "all sets of drivers over all tasks, all sequences of events and initial answers, all schedules of the tasks and of the callers waiting on the drivers", "why_tests_cant": "Whether an event is seen depends on the order in which tasks are polled between two events; there are no tests of these drivers.", "anchors": ["vl8-ctrl-protocol/src/master_drivers.rs: MasterPyroContinuity, MasterHardwareArming, MasterGPS", "vl8-ctrl-protocol/src/master.rs: Master::poll_event, register_waker", "vl8-ctrl-protocol/src/multi_waker.rs: MultiWakerRegistration"]}
{"id": "C110", "title": "A configuration written on the laptop reaches the device, works, and can be replaced", "statement": "After set-device-config with a configuration file the host tool accepts has been answered, every later start (after any calls of other tasks, power losses and interrupted starts) runs the mode of that file with its radio settings and key and the name up to its first 64 bytes; starting never panics because of the configuration; with USB connected the console is served so that another configuration can be set; and `detect` prints the name. (False: radio settings are not checked; with spreading factor 13 the flight computer panics instead of flying, and a device in GCM mode panics at every start before its consoles are served, so it cannot be repaired over USB or serial; a name whose 65th byte continues a character makes `detect` panic.)", "quantifier": "all configurations (names in any valid UTF-8, all modes, all integers as radio settings), all lives of the device before and after the setting, all crash points, all USB connection times", "why_tests_cant": "The defect is in the combination of what the host accepts, what the device stores for ever and the order in which the device polls its tasks; no test covers it.", "anchors": ["vl-host-lib/src/vl/device_config.rs: json_to_device_config", "firmware-common/src/common/rkyv_structs.rs: RkyvVec, RkyvString", "firmware-common/src/common/device_config.rs: LoraConfig", "firmware-common/src/vl_main.rs: vl_main", "firmware-common/src/gcm/mod.rs: gcm_main", "vl-host-lib/src/common/probe_device_type.rs: probe_device_type"]}
{"id": "C111", "title": "Strain-gauge CSV files hold what was measured", "statement": "For any strain-gauge log files pulled from the device, each cut at any byte, whose readings are of the device's four channels with times that are numbers, the host never panics and each channel's CSV has, in stored order, 40 rows per whole reading of that channel, 5 ms apart from its start time, with the stored samples and dates from the unix times of the same file (all or none). Composed with the device: row n of a channel is the filter's output at the end of raw read n, within one half-precision rounding, and at the time of the first read of its group of 40 plus 5 ms per row. The claim that a row carries the time its own raw read was taken is refuted, and a channel number of 4 or more, or a NaN time, panics the host.", "quantifier": "all files, cut points and piece sizes; all raw reads, filters, distributions of readings over files; all finite samples up to 65504", "why_tests_cant": "Needs every float rounding, every file layout and every cut point; a test covers a few recordings.", "anchors": ["vl-host-lib/src/ozys/parse_sg_data.rs: parse_sg_data", "vl-host-lib/src/ozys/sg_data_csv_writer.rs: SGCSVWriter", "vl-host-lib/src/ozys/pull_ozys_data.rs: pull_ozys_data", "firmware-common/src/strain_gauges/low_prio.rs: process_fft"]}
{"id": "C112", "title": "The file system obeys the rules of the flash chip, so that tests in memory speak for the chip", "statement": "For every history of calls, power losses and restarts of a chip that started out unused, and for every further call of the file-system API (whether it succeeds, fails or panics) and every start of the file system: each erase that is issued is of 4, 32 or 64 KiB at an address that is a multiple of that size and inside the device, and each program is of one whole 256-byte page, page-aligned, inside the device, onto a page that is blank at that moment. Consequently the in-memory and file-backed flash implementations, which overwrite bytes instead of clearing bits and check nothing, hold exactly the same bytes as the NOR chip after every call and after every power loss.", "quantifier": "all histories of calls, power losses (also torn pages and torn erases) and restarts; all calls; all points of power loss", "why_tests_cant": "All tests in the repository run on MemoryFlash or FileFlash, which accept unaligned erases and programming a page twice; whether a page can be programmed twice depends on the whole history.", "anchors": ["vlfs/src/driver/flash.rs: Flash", "vlfs/src/flash/memory_flash.rs: MemoryFlash", "vlfs/src/flash/file_flash.rs: FileFlash", "vlfs/src/fs/at_builder.rs", "vlfs/src/fs/writer.rs", "vlfs/src/fs/sector_management.rs"]}
{"id": "C113", "title": "The first use of a chip, whatever it holds", "statement": "Starting the file system on a chip from which no allocation table can be read reports success with no files, erases one sector, writes one page and touches nothing else. A chip that does not begin any table slot with a valid header (erased, all zeros as MemoryFlash::new gives, foreign data) shows no files before its first start, after it, and after any number of first starts interrupted at any point; and every guarantee about histories holds for it.", "quantifier": "all contents of the chip; all points of power loss during any number of first starts", "why_tests_cant": "Tests start from one particular content (zeros); the contents of a chip and the points at which formatting is interrupted cannot be enumerated.", "anchors": ["vlfs/src/fs/init.rs: init", "vlfs/src/fs/allocation_table.rs: read_latest_allocation_table, write_empty_allocation_table", "vlfs/src/flash/memory_flash.rs: MemoryFlash::new"]}
{"id": "C114", "title": "Typed integers written to a file come back, and a file cut short gives a prefix of them", "statement": "If a client opens a file for writing, appends any sequence of u8/u16/u32/u64 values with the extend_from_* functions, with flushes anywhere in between, and closes it, then reading the same widths with read_u8/u16/u32/u64 gives back every value, with no error; and if the power fails at any point, reading the same widths afterwards gives the first values of the sequence, unchanged, and then only end-of-file (None), never a wrong value.", "quantifier": "all sequences of widths and values that fit, all flush points, all histories before, all points of power loss", "why_tests_cant": "Which page boundary splits which value, and what a cut leaves, depends on the whole sequence.", "anchors": ["vlfs/src/utils/io_traits.rs: AsyncReader, AsyncWriter", "vlfs/src/fs/reader.rs", "vlfs/src/fs/writer.rs"]}
{"id": "C115", "title": "Simulated delays end no earlier than their deadline and no sleeper is forgotten", "statement": "In the simulink bridge, a task that starts a delay is not resumed before the simulated time has reached its deadline; whenever the simulation sets the time to the deadline or later, the executor has been told to poll that task, and that poll ends the delay; setting the time always returns and takes exactly the due sleepers off the list.", "quantifier": "all schedules of starting, polling (also spurious) and time updates (also backwards), any number of tasks, any deadlines", "why_tests_cant": "Lost wake-ups depend on the order of polls and updates; there are no tests of the clock.", "anchors": ["vl-simulink-bridge/src/clock.rs: VirtualClock::update_time, VirtualDelay"]}
{"id": "C116", "title": "The simulators' stand-ins for hardware behave like the hardware", "statement": "The virtual serial line delivers the bytes written, in order, whatever the pieces of writes and reads; a read gives at most what was asked for and waits only if all that was written has been read. A virtual switch reads as last set, and one who waits for changes knows the state once no change is pending. A virtual sensor hands out every reading at most once and in order. The simulated radio delivers packets unchanged, in order, at most once, and the last one sent is still received. (False: splitting the line loses bytes already taken off the channel; an empty write reads as end of stream; in the launch simulator a chunk longer than the reader's buffer panics; a change and its undoing are told as a change.)", "quantifier": "all sequences of writes, reads, sets, waits, transmissions and receptions, all piece sizes", "why_tests_cant": "Losses depend on how writes and reads interleave and on chunk sizes; there are no tests of these drivers.", "anchors": ["vl-simulink-bridge/src/virtual_serial.rs", "vl-simulink-bridge/src/virtual_sensors.rs", "launch-simulator/src/virt_drivers/serial.rs", "launch-simulator/src/virt_drivers/vlp_phy.rs"]}
{"id": "C117", "title": "An animation passes through its keyframes at their times and moves evenly in between", "statement": "For an animation of segments of positive length, after updates whose deltas add up to a time within segment k the player returns keyframe k moved towards keyframe k+1 in proportion to the time since keyframe k was due, hence a value between the two; it returns nothing exactly when the time is past the last keyframe; a keyframe added with an absolute time makes the next one due at that time. (False for a first segment of length zero, which gives NaN, and for an animation of one keyframe, which panics.)", "quantifier": "all animations, all sequences of update deltas, over exact arithmetic", "why_tests_cant": "Ranges over all keyframe times and frame timings; there are no tests.", "anchors": ["launch-simulator/src/keyframe.rs: AnimationBuilder, AnimationPlayer::update"]}
{"id": "C118", "title": "A file open for reading is not disturbed by other tasks", "statement": "A task opens a file that nobody is writing to for reading. Whatever other tasks do with the file system between its read requests (creating, opening, appending to, flushing, closing and removing files, including attempts to open this very file for writing or to remove it), every request returns the next bytes of what the file held when it was opened, with the end reported exactly when the file is exhausted; no request fails or panics; and the file still holds the same content afterwards.", "quantifier": "every history of calls, power losses and restarts before; every sequence of read request sizes; every interleaving with any legal calls of other tasks, successful or not", "why_tests_cant": "the interference depends on where other tasks' sectors are allocated and when they are erased relative to the reader's position: unboundedly many interleavings", "anchors": ["vlfs/src/fs/reader.rs: FileReader::read_slice, read_next_page", "vlfs/src/fs/writer.rs: open_file_for_write, FileWriter", "vlfs/src/fs/mod.rs: remove_files", "vlfs/src/fs/allocation_table.rs: create_file"]}
{"id": "C119", "title": "Console sessions: every request answered, pulls exact among other activity, files released; the device survives a broken line", "statement": "The serial console serves from the start and the USB console whenever it is connected, both over the same file system that other tasks are using. At every moment, whatever the consoles and the other tasks have done before, a file request on a console in service is answered and does not panic. From the moment a console has opened a file until it closes it, opens another one or is disconnected, its read requests return the file's content from the beginning in consecutive pieces of 128 bytes, never flagged as corrupted, whatever happens in between, and the content stays. The file is in use during that time and free after the close, which writes nothing to the flash. When a line fails (a cable is pulled) the device goes on and the console can be used again after reconnecting. (The code does not satisfy the last part: if the line fails while a file is open, the unclosed reader is dropped and the device panics - and this is the only way in which a console event makes it panic; and the serial console is never served again after one error on its line.)", "quantifier": "every history of the file system before the start, every interleaving of other tasks' legal calls, requests on both consoles, connections and disconnections of any length; the laptop opens no file that is being written", "why_tests_cant": "the interleavings of two consoles and the other tasks, and the moments at which a cable can be pulled, are unbounded", "anchors": ["firmware-common/src/common/console/create_rpc.rs: run_rpc_server", "firmware-common/src/common/console/vl_rpc.rs: OpenFile, ReadFile, CloseFile", "firmware-common/src/vl_main.rs: serial_console_fut, usb_console_fut", "vlfs/src/fs/reader.rs: impl Drop for FileReader"]}
{"id": "C120", "title": "Live strain-gauge samples on the console come in order, none twice, and at most three behind", "statement": "While a console session is running on the strain-gauge board, GetRealTime answers with the oldest sample it has not yet answered among the last four measured, and with nothing exactly when there is none: the samples answered in a session are samples measured during that session, in the order in which they were measured, none twice; an answer has at most three newer samples; a client that polls after every sample gets every sample. Sessions can follow one another without a panic. (It need not be the newest sample: C120_refuted_newest.)", "quantifier": "every sequence of samples, polls, connections and line failures", "why_tests_cant": "the interleavings of polls with samples and sessions are unbounded", "anchors": ["firmware-common/src/common/console/sg_rpc.rs: GetRealTime", "firmware-common/src/strain_gauges/low_prio.rs: sg_low_prio_main", "firmware-common/src/strain_gauges/global_states.rs: realtime_sample_pubsub", "firmware-common/src/strain_gauges/mid_prio.rs: usb_console_fut"]}
{"id": "C121", "title": "The start-up check keeps a broken rocket on the ground and says so", "statement": "The flight computer goes on to fly exactly if all its sensors can be reset and both IMUs and the barometer be read; a magnetometer that does not answer does not stop it but is told by a different melody; if a critical sensor fails, the red light blinks for ever and the melody is not that of success. Without a flight profile nothing is touched and it does not fly.", "quantifier": "all combinations of succeeding and failing sensor calls, all times at which the buzzer and light tasks are polled", "why_tests_cant": "combinations of sensor failures with unbounded schedules of the buzzer and light tasks; the hardware failures cannot be produced in a unit test", "anchors": ["firmware-common/src/avionics/self_test.rs: self_test", "firmware-common/src/avionics/mod.rs: avionics_main", "firmware-common/src/common/buzzer_queue.rs", "firmware-common/src/common/indicator_controller.rs"]}
{"id": "C122", "title": "Clearing the strain-gauge board's data from the console", "statement": "Whatever the device holds and whatever its tasks are doing, after ClearData is answered no file is left except those marked as open, which are unchanged; the space of the others is free; power lost meanwhile leaves all files or only those in use; and recording goes on afterwards: what is recorded after the command is kept as before.", "quantifier": "all reachable file-system states with any open readers and writers, all crash points; all ring configurations and numbers of later rollovers", "why_tests_cant": "all states, all open handles, all crash points, unbounded later history", "anchors": ["firmware-common/src/common/console/sg_rpc.rs: ClearData", "vlfs/src/fs/mod.rs: remove_files", "vlfs/src/fs/at_builder.rs: write_new_file_and_open_for_write", "firmware-common/src/common/delta_logger/ring_file_writer.rs: create_new_segment"]}
{"id": "C123", "title": "Flight events are announced on the CAN bus", "statement": "Ignition, coast, apogee and landing are each announced on the CAN bus when the flight cores detect them, once and in order; nothing else is announced.", "quantifier": "all runs of the avionics tasks: switch changes, readings, triggers, schedules", "why_tests_cant": "unbounded interleavings of tasks and flights", "anchors": ["firmware-common/src/avionics/mod.rs:can_tx_flight_event_fut", "firmware-common/src/avionics/flight_core_event_channel.rs"]}
{"id": "C124", "title": "The camera records from arming until a minute after landing", "statement": "The camera records while the rocket is armed; it is switched on only after an arming, and off only after a disarming or a minute after a landing.", "quantifier": "all runs of the avionics tasks", "why_tests_cant": "unbounded interleavings; a one-minute wait during which messages are lost", "anchors": ["firmware-common/src/avionics/mod.rs:camera_ctrl_fut"]}
{"id": "C125", "title": "Telemetry shows the state of the flight cores", "statement": "The flight state, altitude and air speed in telemetry are the last ones the flight cores published; nothing the cores that run publish restarts the device.", "quantifier": "all runs of the avionics tasks", "why_tests_cant": "unbounded interleavings", "anchors": ["firmware-common/src/avionics/mod.rs:flight_core_event_consumer"]}
{"id": "C126", "title": "Beeps tell the position of the arming switch", "statement": "The arming beeps alternate between rising and falling, starting with rising, and the last one tells the position of the (debounced) hardware switch; software arming never beeps.", "quantifier": "all sequences of switch changes, software commands and schedules", "why_tests_cant": "unbounded interleavings with lost notifications", "anchors": ["firmware-common/src/avionics/mod.rs:hardware_arming_beep_fut", "firmware-common/src/avionics/arming_state.rs"]}
{"id": "C127", "title": "The strain-gauge board's light tells its status, and the board records by itself", "statement": "The light shows one of four distinguishable patterns: USB connected at boot, a failing converter, recording, idle, in this order of urgency, each pattern completely and according to the status when it starts; the board starts recording by itself unless USB is connected when it boots.", "quantifier": "all sequences of samples, console commands, bus messages and schedules", "why_tests_cant": "unbounded interleavings", "anchors": ["firmware-common/src/strain_gauges/mid_prio.rs:led_fut", "firmware-common/src/strain_gauges/mid_prio.rs:store_sg_fut", "firmware-common/src/strain_gauges/high_prio.rs", "firmware-common/src/common/console/sg_rpc.rs:SetAdcEnable"]}
{"id": "C128", "title": "Measuring the flash does not change it, and its figures are right", "statement": "The flight computer's file system runs on a wrapper that times every flash call. Whatever the timing and whoever reads or resets the figures meanwhile (also while a call is in progress), callers get exactly what the chip returns, errors included, and the chip goes through the same states; the figures are, for each of the five kinds of call, the number of calls completed since the last reset (modulo 2^32, failures included) and the sum of their durations.", "quantifier": "all chips (any transition function), all sequences of calls, all clock readings, all interleavings of reset_stat and get_stat", "why_tests_cant": "a test runs one sequence of calls on one chip; the claim is that the wrapper is invisible for every chip, every failing call and every moment at which somebody resets the figures", "anchors": ["vlfs/src/flash/stat_flash.rs: StatFlash, StatFlashFlash, run_with_stat!", "firmware-common/src/vl_main.rs:51-55"]}
{"id": "C129", "title": "A full flash stops the recording, not the flight", "statement": "Every second the flight computer compares the free space with 1 MiB. A sensor or GPS reading goes to the recorder exactly when the last comparison found at least 1 MiB (before the first one, always); recording resumes when space is released. The flight core and the telemetry get every reading regardless, in order. The recorder keeps a reserve: with at most n readings between two checks and at most c bytes per reading, the free space never drops more than c*(n + 90) below 1 MiB, whatever the interleaving of sensors, writers and checks.", "quantifier": "all sequences of checks, sensor ticks, GPS fixes, buffered writes of any cost and space changes by others, of any length", "why_tests_cant": "the reserve depends on how sensor ticks, buffered writers and the once-a-second check interleave over hours; a test sees a few schedules on a flash that is not full", "anchors": ["firmware-common/src/avionics/mod.rs:233, 517-556, 845-853", "firmware-common/src/common/delta_logger/buffered_logger.rs: ref_log"]}
{"id": "C130", "title": "The recorders change files on schedule and never two at a time", "statement": "The six ring loggers of the flight computer (two tiers each for GPS, IMU and barometer) are staggered: with wake-ups at most L late and a change of file taking at most D, the k-th change of a recorder begins between its planned time (first segment + k segments) and D + 2L after it, without drift; and if 2L + 2D plus the skew between their starts is below 25 s, the intervals in which two different recorders change files are disjoint, for ever.", "quantifier": "all pairs of recorders, all numbers of segments, all wake-up delays and durations within the bounds", "why_tests_cant": "the first segments take minutes and the claim is about every later coincidence of a 5-minute and a 30-minute cycle over an unbounded flight", "anchors": ["firmware-common/src/avionics/mod.rs:82-128, 183-212", "firmware-common/src/common/delta_logger/ring_delta_logger.rs:223-249", "firmware-common/src/common/ticker.rs"]}
{"id": "C131", "title": "The printed LoRa key reads back as the same key", "statement": "The text that the command line prints for a generated 32-byte LoRa key is a JSON array of numbers that, pasted into the configuration file, reads back as exactly that key; two different keys never print the same.", "quantifier": "all 32-byte keys", "why_tests_cant": "there are 2^256 keys; the unit test only prints one", "anchors": ["vl-host-lib/src/vl/lora_key.rs: format_lora_key", "vl-cli/src/main.rs:374-377"]}
{"id": "C132", "title": "How far back the flight recorder reaches", "statement": "While a ring logger runs and only it stores files of its type, the flash holds the newest files of that type, exactly as many as configured (or all there are), oldest dropped first; on the clock, everything recorded during the last (segments - 1) segment lengths, less 2D + 2L for the duration of a change of file and late wake-ups, is in a file that is still on the flash: at least 24 min 54 s for the first tier and 4 h 29 min 54 s for the second when these are below 1.5 s.", "quantifier": "all starting directories, all numbers of rollovers and foreign file creations, all delays and durations within the bounds, all moments", "why_tests_cant": "it takes hours of recording to fill a ring; the claim is about every moment of an unbounded flight and every earlier content of the flash", "anchors": ["firmware-common/src/common/delta_logger/ring_delta_logger.rs:60-114, 223-275", "firmware-common/src/avionics/mod.rs:82-128, 183-212", "firmware-common/src/common/file_types.rs:12-19"]}
{"id": "C133", "title": "What the radio commands do to an avionics computer in flight mode", "statement": "For every interleaving of received commands with sensor readings, the arming switch, the deployment timers and the pyro tasks: no pyro output is ever enabled unless a soft-arm command has been received since the device last started; the software arming, and the one telemetry reports, are what the commands received since then last asked for (soft-arm says, the end of low power disarms); the sensors are off exactly when the last command received is 'low power on'; a ground-test deployment or a vertical calibration changes nothing but ending low power; the device restarts only on a reset command, at least 100 ms after the other boards were told, and then has to be armed again. The radio's own low-power mode should agree with the application's (it does not: after 'low power on' and any other command the rocket is awake, possibly armed, and sends no telemetry). Since the last start the logs are deleted exactly once per \"delete logs\" packet received, and the CAN reset message is sent exactly at the reset packets.", "quantifier": "all sequences of received commands, sensor readings, arming-switch levels, debounce polls, timer ticks, pyro task polls and restarts, and all flight profiles", "why_tests_cant": "the claims are invariants over unbounded histories of interleaved asynchronous tasks; a test exercises a handful of command sequences", "anchors": ["firmware-common/src/avionics/mod.rs: vlp_rx_fut, low_power_mode, imu_baro_fut", "firmware-common/src/avionics/arming_state.rs: ArmingStateManager", "firmware-common/src/common/vlp/uplink_client.rs: VLPUplinkClient::run"]}
{"id": "C134", "title": "The avionics status on the CAN bus is regular and current", "statement": "Every status message on the CAN bus says what the arming and the low-power mode were at some moment between the start and its transmission; there is at most one for every two seconds that have passed, plus one; and if the task is woken at most L late, a transmission (with the wait for the transmitter) takes at most W and at most F messages in a row are lost, then from (F+1)(max(W, 2 s)+L)+W after the start there always is a status on the bus that is no older than that, so that any change of arming or mode is announced within this time; the strain-gauge board's receiver then records exactly when that status says armed and no landing is in force (and, because only landings are ever announced, never again after the first landing).", "quantifier": "all interleavings of arming and mode changes, wake-ups, transmissions that succeed or fail, and other tasks' messages; all L, W, F", "why_tests_cant": "the bounds are about every moment of unbounded runs under every timing of three tasks sharing a transmitter", "anchors": ["firmware-common/src/avionics/mod.rs: can_tx_avionics_status_fut", "firmware-common/src/ground_test_avionics/mod.rs: can_tx_avionics_status_fut", "firmware-common/src/common/ticker.rs: Ticker::next", "firmware-common/src/strain_gauges/mid_prio.rs: can_rx_fut"]}
{"id": "C135", "title": "The window of the time-based radio nonces", "statement": "With time-based nonces enabled, a packet is decodable if the sender's clock is at most 0.5 s behind or 0.4 s ahead of the receiver's estimate of the moment of sending (reception less time on air), and its nonce is never among the receiver's candidates if it is 0.6 s or more behind or 0.5 s or more ahead, so a recorded frame is useless 0.6 s plus the time on air later; two packets share a nonce exactly when they are sent within the same tenth of a second. (As the source stands the scheme is switched off and all packets share one nonce; and even enabled, two packets within a tenth of a second reuse the key stream.)", "quantifier": "all sending and receiving times within the clock's range and all times on air", "why_tests_cant": "the window is a statement about all pairs of clocks; its edges depend on where both times fall within a tenth of a second", "anchors": ["firmware-common/src/common/vlp/packet_builder.rs: get_nonce, get_past_nonce, TIME_BASED_NONCE_ENABLED"]}
{"id": "C136", "title": "When the flight cores report height and speed", "statement": "The primary flight core publishes its height and vertical speed exactly once in every tick after the one that detected launch and never before; the backup core publishes the vertical speed with every barometer reading, on the pad, in flight and after landing; the manual core publishes neither.", "quantifier": "all sequences of sensor snapshots, readings, triggers and ticks, all flight profiles", "why_tests_cant": "the claim is about every tick of every flight, including the boundary tick that detects launch", "anchors": ["firmware-common/src/avionics/flight_core.rs: FlightCore::tick, is_in_air", "firmware-common/src/avionics/backup_flight_core.rs: tick", "firmware-common/src/avionics/backup_backup_flight_core.rs"]}
{"id": "C137", "title": "The time on the CAN bus", "statement": "The time messages on the CAN bus are, in order and each at most once, times that the GPS clock announced; when the sender is idle and nothing failed the last message is the last announcement. If the sending task is at most A late and a transmission takes at most W, every message goes out within A + 2W of its pulse, and within A + 2W of every announcement that time or a newer one has been sent. A board that takes a message down on arrival (transit X or less) has from then on a clock that is never fast and slow by at most L + A + 2W + X. (The claim that the board then knows the time whatever the load of the bus fails: the message does not tell how old it is, so the whole delay is the board's error; and if a transmission lasts over a second, announcements are skipped.)", "quantifier": "every interleaving of GPS messages, pulses, waiting tasks and bus transmissions of any duration and outcome; all boot offsets, delays and node numbers", "why_tests_cant": "a unit test has one schedule; the bound has to hold for all of them and for all phases of the pulse relative to the transmissions", "anchors": ["firmware-common/src/avionics/mod.rs: can_tx_unix_time_fut", "firmware-common/src/common/unix_clock.rs: subscribe_unix_clock_update", "firmware-common/src/common/can_bus/messages.rs: UnixTimeMessage", "firmware-common/src/strain_gauges/mid_prio.rs: can_rx_fut"]}
{"id": "C138", "title": "No device of the flight computer is claimed twice", "statement": "Claiming a device that somebody holds brings the program down. Whatever the configuration and flight profile, whether USB is plugged in, whatever the self test finds and however the tasks are scheduled, no claim finds its device taken, and each mode holds the devices it works with. (True exactly if no pyros come into play or one of the two configured pyros is pyro 1 and the other is not: for every other pair the device panics as soon as both continuity monitors run.)", "quantifier": "all device modes, flight profiles, ground-test configurations and fire commands, USB and self-test outcomes, all schedules of the pyro tasks and any number of their rounds", "why_tests_cant": "claims are run-time locks in macros, spread over seven files; whether two are ever held together depends on configuration and schedule", "anchors": ["firmware-common/src/common/vl_device_manager.rs: claim_devices!", "firmware-common/src/common/pyro_macro.rs: pyro!", "firmware-common/src/vl_main.rs: vl_main", "firmware-common/src/avionics/mod.rs: avionics_main", "firmware-common/src/avionics/self_test.rs: self_test", "firmware-common/src/ground_test_avionics/mod.rs: ground_test_avionics", "firmware-common/src/gcm/mod.rs: gcm_main", "firmware-common/src/vacuum_test/mod.rs: vacuum_test_main"]}
{"id": "C139", "title": "The dates of the flight log", "statement": "Each unix time the flight computer writes into its flight log beside a time since boot is, at that time, never fast and slow by at most the stamping delay of the clock pulse plus the delay of the logging task; and the host, reading a log file back, dates every reading lying between two of the file's unix times with no more error than that. A reading from before the first unix time is dated by extrapolation, with an error growing in proportion to its distance.", "quantifier": "every history of GPS times, clock pulses and turns of the logging task, every file holding some of the logged unix times, every reading in it", "why_tests_cant": "it composes the clock, a channel holding one message, the log and the host's interpolation over every interleaving of pulses and task turns and every spacing of the references", "anchors": ["firmware-common/src/avionics/mod.rs loggers_unix_time_log_fut", "unix_clock.rs UnixClockTask", "vl-host-lib/src/common/unix_timestamp_lut.rs UnixTimestampLUT"]}
{"id": "C140", "title": "The dates of the strain-gauge board's battery log", "statement": "The unix times in the battery log of the strain-gauge board are times received from the flight computer, in order, none twice, at most one every five minutes and always the newest; so a battery reading between two of them is dated as rightly as the received times are. As built, and in the first ten minutes of any recording, no reading can be dated.", "quantifier": "every history of time messages and ticks of the five-minute ticker, every file holding some of the logged times, every reading in it", "why_tests_cant": "it holds for every interleaving of messages and ticks over hours of recording, and composes the task with the host's interpolation", "anchors": ["firmware-common/src/strain_gauges/mid_prio.rs store_battery_unix_time_fut", "firmware-common/src/common/ticker.rs Ticker::next", "vl-host-lib/src/common/unix_timestamp_lut.rs UnixTimestampLUT"]}
