#!/usr/bin/env python3
# Generates /verif/properties.jsonl (the catalogue of properties). Edit here, then run.
import json, os
P = []
def p(title, statement, quantifier, why, anchors):
    P.append(dict(id="C%02d" % (len(P)+1), title=title, statement=statement,
                  quantifier=quantifier, why_tests_cant=why, anchors=anchors))

V="vlfs/src/fs/"; U="vlfs/src/utils/"; F="firmware-common/src/"
# ---------------- VLFS: codes and on-flash formats
p("File-table entry code: encode/decode identity and single-bit correction",
  "Every 12-byte payload, encoded into a 13-byte SECDED block and then read back either unmodified or with any one of its 104 bits flipped, decodes to exactly the original payload.",
  "all 2^96 payloads x (no error or any of the 104 bit positions)",
  "2^96 payloads x 104 positions cannot be enumerated.",
  [V+"hamming.rs: hamming_encode, hamming_decode"])
p("File-table entry code: every double-bit error is detected",
  "If any two distinct bits of an encoded 13-byte block are flipped, decoding reports an error (it never returns a payload, right or wrong).",
  "all payloads x all pairs of distinct bit positions",
  "2^96 payloads x 5356 pairs.",
  [V+"hamming.rs: hamming_decode"])
p("Erased or zeroed flash is never mistaken for a file entry",
  "A 13-byte block read from erased flash (all 0xFF) or zeroed flash is reported as an error, even after any single further bit flip; so an interrupted table write cannot fabricate a file entry.",
  "the erased/zero block and each of its one-bit neighbours",
  "the user relies on it at every crash point of a table write",
  [V+"hamming.rs: hamming_decode", V+"allocation_table.rs: FileEntry::deserialize"])
p("Quadruplicated page fields survive corruption of any one copy",
  "A 16-bit value stored as four copies (sector length, next-sector index) is recovered exactly whenever at most one copy has been changed arbitrarily, and also when two copies are changed to different values; a result is absent only if no two copies agree, and any result returned is held by at least two copies.",
  "all 16-bit values and all corruptions",
  "2^64 combinations",
  [V+"utils.rs: find_most_common, copy_from_u16x4", V+"writer.rs", V+"reader.rs"])
p("File entries and table headers survive a write/read round trip",
  "For every file id, type and first-sector (present or absent), the 13-byte stored entry decodes to the same entry; for every version and sequence number the 12-byte header decodes to the same header.",
  "all u64 ids, u16 types, optional u16 sectors other than the reserved none value, u64 sequence numbers",
  "unbounded input space",
  [V+"allocation_table.rs: FileEntry, AllocationTableHeader"])
# ---------------- VLFS: allocation table
p("Directory updates are atomic across power loss",
  "If power is lost at any point while a directory change (create, remove, set-first-sector) is being written, the next init sees either the complete old directory or the complete new one: never a mixture, a truncated list or an empty directory.",
  "every directory content within capacity, every change, every prefix of the flash operations performed by the change",
  "crash points x directory contents are unbounded",
  [V+"at_builder.rs: ATBuilder", V+"allocation_table.rs: read_latest_allocation_table, create_file", V+"init.rs: init"])
p("A completed directory update is durable and becomes the current one",
  "After a directory change returns Ok, re-initialising from flash yields exactly the directory the change produced, for any number of consecutive changes (the four table slots wrap around).",
  "all sequences of committed changes",
  "unbounded histories, slot wrap-around",
  [V+"at_builder.rs: commit", V+"allocation_table.rs: read_latest_allocation_table"])
p("File ids are never reused",
  "Along any history of create, remove and reboot, each created file's id is strictly greater than every id handed out before, even if the newest file was deleted before the reboot.",
  "all histories of create/remove/reboot (crash at any step)",
  "unbounded histories",
  [V+"at_builder.rs: get_new_file_id, commit", V+"allocation_table.rs: create_file, AllocationTableFooter"])
p("File lookup by id is exact",
  "Looking up an id in the stored directory finds the entry with that id if it is listed and reports does-not-exist otherwise, whatever the number of files.",
  "all directories with strictly increasing ids, all ids",
  "binary search boundary cases over unbounded tables",
  [V+"allocation_table.rs: find_file_entry"])
p("Directory iteration lists exactly the matching files in creation order",
  "files_iter with a filter yields every stored file whose type matches, exactly once, in increasing id order, and nothing else.",
  "all directories and filters",
  "unbounded directories",
  [V+"iter.rs: FilesIterator", V+"mod.rs"])
p("Concurrent directory iteration is monotone and complete for surviving files",
  "Whatever directory changes happen between calls to next(), a concurrent iterator returns strictly increasing ids; every id it returns was in the directory at that moment; and any matching file that exists throughout the whole iteration is returned.",
  "all schedules of directory changes between calls",
  "unbounded interleavings",
  [V+"iter.rs: ConcurrentFilesIterator"])
p("The directory never outgrows its table slot",
  "Creating files never writes outside the 32 KiB table slot being built, so older tables and file data stay intact.",
  "every number of files",
  "needs thousands of creations; the limit constant exists but nothing enforces it",
  [V+"mod.rs: MAX_FILES", V+"at_builder.rs: write, commit"])
# ---------------- VLFS: sector allocator
p("Free-space bookkeeping is exact",
  "After any sequence of claims and returns, the reported free count equals the number of free 4K sectors, and a 32K/64K block is marked free exactly when all its sectors are free.",
  "all sequences of set-used/set-unused on distinct sectors",
  "unbounded histories over 16384 sectors",
  [V+"sector_management.rs: SectorMap"])
p("A sector is never handed out twice",
  "Along any history of sector claims and returns, a claimed sector is always in the data region, was free before the claim, and is not handed out again until returned.",
  "all histories of claims/returns and all random starting points",
  "unbounded histories, randomised allocator",
  [V+"sector_management.rs: claim_avaliable_sector_and_erase, claim_erase_region, return_sector"])
p("Every sector handed out has been erased",
  "A claimed sector reads as all 0xFF at the moment it is handed out, and nothing that is in use is ever erased by the allocator.",
  "all histories",
  "unbounded histories",
  [V+"sector_management.rs: erase, claim_avaliable_sector_and_erase"])
p("Allocation fails only when the device is full",
  "A claim returns DeviceFull only if no free sector exists at all.",
  "all allocator states, all random starting points",
  "search wrap-around over 3 granularities",
  [V+"sector_management.rs: claim_erase_region"])
# ---------------- VLFS: file contents
p("What is written is what is read",
  "For any byte string written to a new file with any partition into extend calls and any flushes in between, then closed, reading the file with any sequence of buffer sizes returns exactly that byte string and then end of file, with no corruption reported.",
  "all byte strings, all chunkings, all flush points, all read buffer sizes",
  "page/sector boundary combinations are unbounded",
  [V+"writer.rs: FileWriter", V+"reader.rs: FileReader"])
p("Appending keeps previously written data",
  "Re-opening a closed file for writing and writing more bytes yields the old content followed by the new content.",
  "all old contents and appended contents",
  "unbounded",
  [V+"writer.rs: open_file_for_write, new_existing"])
p("Flushed data survives power loss during later writes",
  "Once flush returns, if power is lost at any later point of continued writing to the file, reading it after reboot returns a prefix of what was written that includes everything flushed.",
  "all contents, all crash points after a flush",
  "crash points x contents",
  [V+"writer.rs: flush, _flush", V+"reader.rs: read_next_page"])
p("Data loss on power failure is bounded",
  "At most the bytes written after the last flush or completed sector are lost, which is fewer than one sector (4016 bytes).",
  "all contents and crash points",
  "crash points x contents",
  [V+"writer.rs", "vlfs/README.md"])
p("Reported file size equals readable bytes",
  "get_file_size returns exactly the number of bytes a reader will return for the file.",
  "all files produced by any write history",
  "unbounded",
  [V+"mod.rs: get_file_size", V+"reader.rs"])
p("Corrupted pages are never returned as good data",
  "If a page's stored checksum does not match the checksum of the data read, the read reports CorruptedPage; data is reported good only if its checksum matched.",
  "all flash contents (arbitrary corruption)",
  "2^2048 pages",
  [V+"reader.rs: read_next_page, read_slice"])
p("Removing a file frees exactly its own sectors",
  "remove_file makes the file disappear, returns precisely the sectors of that file's chain to the free pool, and leaves every other file's directory entry and content unchanged.",
  "all file systems and files",
  "unbounded",
  [V+"mod.rs: remove_file", V+"at_builder.rs: release_file_sectors"])
p("Files in use are protected",
  "While a file is opened for read or write through the API, removing it or opening it again is refused with FileInUse, and bulk removal skips it; closing it lifts the protection.",
  "all histories of open/close/remove, for every way of opening a file",
  "unbounded histories",
  [V+"allocation_table.rs: mark_file_opened, mark_file_closed", V+"mod.rs", V+"writer.rs: create_file_and_open_for_write"])
p("A failed open leaves no trace",
  "If opening a file for write fails, the file is not left marked as open (so it can be opened or removed later).",
  "all failure causes",
  "error paths x states",
  [V+"writer.rs: open_file_for_write"])
p("Reboot reconstructs the free-sector map",
  "After init, a data sector is marked used exactly when it belongs to the chain of some file in the directory.",
  "all well-formed flash contents",
  "unbounded",
  [V+"init.rs: read_free_sectors"])
# ---------------- VLFS: concurrency
p("Reader/writer lock: mutual exclusion",
  "At no time does a writer hold the lock together with any reader or another writer.",
  "all schedules of acquire/poll/cancel/release by any number of tasks",
  "interleavings",
  [U+"rwlock.rs: RwLock"])
p("Reader/writer lock: no lost wake-up",
  "If the lock is free and no acquisition is granted, no task stays blocked forever: every waiting task has a registered waker or will be polled.",
  "all schedules",
  "interleavings including cancellation",
  [U+"rwlock.rs: read, write"])
p("File-system operations do not deadlock each other",
  "Concurrent VLFS operations acquire the internal locks in a consistent order, so a set of running operations can always make progress.",
  "all interleavings of operations",
  "interleavings",
  [V+"writer.rs", V+"at_builder.rs", V+"sector_management.rs", V+"allocation_table.rs"])
p("Background erase is invisible to readers and writers",
  "With the managed-erase wrapper, any interleaving of background erases with reads and writes gives the same bytes as if each erase had completed immediately.",
  "all operation sequences and suspend points",
  "interleavings",
  ["vlfs/src/flash/managed_erase_flash.rs", "vlfs/src/flash/async_erase_flash.rs"])
# ---------------- Delta logger
p("Bit-packed stream round trip",
  "Any sequence of values of any bit widths written through the bit writer, drained to bytes at arbitrary moments, and replenished into the bit reader in arbitrary chunks is read back as the same sequence.",
  "all value sequences, widths and drain/replenish points",
  "bit offsets x schedules",
  [F+"common/delta_logger/bitslice_serialize.rs", F+"common/delta_logger/bitslice_primitive.rs"])
p("Delta log round trip",
  "For every sequence of log, log-unix-time and flush calls, decoding the produced byte stream yields the sequence of accepted entries, in order, each sensor reading being either bit-exact (full) or the value reconstructed from the quantised delta.",
  "all call sequences",
  "state-dependent encoding over unbounded histories",
  [F+"common/delta_logger/delta_logger.rs: DeltaLogger, DeltaLoggerReader", F+"common/delta_logger/delta_factory.rs"])
p("Delta log error does not accumulate",
  "Every decoded value differs from the value logged by at most one quantisation step, no matter how many deltas preceded it.",
  "all sequences of readings",
  "accumulation over unbounded sequences",
  [F+"common/delta_logger/delta_factory.rs", F+"common/fixed_point.rs"])
p("Fixed-point quantisation honours its declared error",
  "Encoding a value inside [min,max] and decoding it gives a value within the declared maximum error; values outside the range are rejected; the code fits the declared number of bits.",
  "all reals in range, all factory parameters",
  "continuous domain",
  [F+"common/fixed_point.rs", "calculate-required-bits/src/lib.rs"])
p("Logging an entry never overflows the logger's buffer",
  "Any log / log-unix-time call on a delta logger fits in its internal bit buffer.",
  "all sensor data sizes and all buffer fill states",
  "depends on type sizes and residual bits",
  [F+"common/delta_logger/delta_logger.rs"])
p("A log cut short by power loss decodes to a prefix",
  "Reading any prefix of a log file yields a prefix of the entries that were logged, then end of file: never a wrong entry.",
  "all logs, all truncation points",
  "truncation points x contents",
  [F+"common/delta_logger/delta_logger.rs: DeltaLoggerReader"])
p("Ring log retention",
  "A ring logger never keeps more than the configured number of segment files, and it deletes only the oldest segment of its own type.",
  "all histories of segment rollovers and reboots",
  "unbounded histories",
  [F+"common/delta_logger/ring_file_writer.rs", F+"common/delta_logger/ring_delta_logger.rs"])
# ---------------- Radio link
p("Radio packets round trip",
  "Every uplink packet built and parsed by the other side with the same key gives the same packet; the same for acks and telemetry (up to the declared quantisation).",
  "all packets, keys",
  "unbounded inputs",
  [F+"common/vlp/packet_builder.rs", F+"common/vlp/packet.rs", F+"common/vlp/telemetry_packet.rs"])
p("Radio framing arithmetic is self-inverse and fits the radio buffer",
  "The receiver derives the parity length from the received length and always recovers the sender's split; every packet fits in the 49-byte radio buffer.",
  "all payload lengths",
  "off-by-one over integer division",
  [F+"common/vlp/packet_builder.rs"])
p("Malformed radio packets are rejected, not acted upon",
  "Any received byte string either decodes to a packet that was validly framed or is rejected with an error; the receiver never panics.",
  "all byte strings up to the radio limit",
  "2^392 strings",
  [F+"common/vlp/packet_builder.rs", F+"common/vlp/packet.rs"])
p("Recorded uplink commands cannot be replayed",
  "An uplink packet accepted once is not accepted again when the same radio bytes are received later.",
  "all packets and times",
  "temporal property",
  [F+"common/vlp/packet_builder.rs: TIME_BASED_NONCE_ENABLED"])
# ---------------- Flight software
p("Flight phases advance in order",
  "The primary flight core only moves forward through armed, power ascend, coast, drogue, main, landed; it never skips ejection phases backwards and never returns to an earlier phase.",
  "all sensor and time sequences",
  "unbounded sensor traces",
  [F+"avionics/flight_core.rs: FlightCore::tick"])
p("No ejection before apogee",
  "The primary core enters the drogue-chute phase only after it has been in coast, vertical speed has dropped to the apogee threshold, and (unless configured otherwise) minimum apogee has been reached; the main chute phase only after the drogue phase and below main altitude.",
  "all sensor and time sequences",
  "unbounded traces",
  [F+"avionics/flight_core.rs"])
p("Backup core deploys in order, once, after its delays",
  "The backup core publishes drogue-deployed at most once and only after descent was detected and the drogue delay has elapsed, publishes main-deployed at most once and only afterwards and below the main altitude, and landed last.",
  "all sensor and time sequences",
  "unbounded traces",
  [F+"avionics/backup_flight_core.rs"])
p("Manual-trigger core deploys in order after its delays",
  "The backup-backup core publishes nothing before the manual trigger; afterwards drogue, main and landed events each at most once, in order, and never earlier than the configured delays.",
  "all time sequences",
  "unbounded traces",
  [F+"avionics/backup_backup_flight_core.rs"])
p("Deployment is announced when it happens",
  "Whenever the primary core commands a chute, subscribers receive a ChuteDeployed event (as they do from the backup cores).",
  "all traces",
  "unbounded traces",
  [F+"avionics/flight_core.rs", F+"avionics/flight_core_event.rs"])
p("Armed means both switches",
  "The rocket is reported armed exactly when software arming and the debounced hardware arming are both on; either going off disarms it.",
  "all sequences of switch changes",
  "unbounded interleavings",
  [F+"avionics/arming_state.rs", F+"common/debounced_signal.rs"])
p("A pyro channel fires at most once per boot, for a bounded pulse, only on its deploy event",
  "Each pyro output is enabled only after a deploy command for its chute, is disabled again 3 s later, and is never enabled a second time until reboot.",
  "all event sequences",
  "unbounded traces",
  [F+"avionics/mod.rs"])
p("Debouncing",
  "A debounced input changes its published value only after the raw input has held the new value for the whole debounce interval; glitches shorter than that are invisible.",
  "all input traces and timings",
  "timing traces",
  [F+"common/debounced_signal.rs"])
# ---------------- Channels, console, misc codecs
p("Zero-copy channel is a lossless FIFO",
  "Values sent through the channel are received exactly once, in order; a sender that finds it full fails or waits and overwrites nothing that is unread.",
  "all interleavings of send/receive",
  "interleavings",
  [F+"common/zerocopy_channel.rs"])
p("Console link resynchronises after any garbage",
  "Whatever bytes were sent before (including a partial request), after the client's reset sequence the server is back at a command boundary and answers the reset command.",
  "all byte histories",
  "unbounded byte strings",
  [F+"common/console/create_rpc.rs"])
p("Console requests with a bad checksum have no effect",
  "A request whose checksum does not match never runs its handler, and a request with a matching checksum runs its handler exactly once with the transmitted arguments.",
  "all byte strings",
  "unbounded",
  [F+"common/console/create_rpc.rs"])
p("Downloaded file equals stored file",
  "Pulling a file over the console reproduces the file's bytes exactly, for any file size.",
  "all files",
  "chunk boundaries",
  ["vl-host-lib/src/common/pull_file.rs", F+"common/console/vl_rpc.rs: ReadFile"])
p("Configuration updates are atomic",
  "After writing a configuration, reading it returns the new value; if power is lost during the write, reading returns either the old or the new value.",
  "all crash points",
  "crash points",
  [F+"common/config_file.rs"])
p("CAN identifiers and messages round trip",
  "Packing and unpacking a CAN identifier or message preserves all fields; identifiers order on the bus by priority first.",
  "all field values",
  "large input space",
  [F+"common/can_bus/id.rs", F+"common/can_bus/messages.rs"])
p("Slave event queue",
  "The control-protocol slave delivers events in order, keeping the newest five; events are lost only when more than five are pending, and then the oldest ones.",
  "all sequences of push/poll",
  "unbounded histories",
  ["vl8-ctrl-protocol/src/slave.rs"])
p("Control-protocol frames round trip and bad frames are rejected",
  "decode(encode(p)) = p for every package; a frame whose length byte disagrees with its length, or whose id is unknown, is rejected.",
  "all packages, all byte strings",
  "input space",
  ["vl8-ctrl-protocol/src/codec.rs"])
p("GPS sentence framing is independent of UART chunking",
  "For a stream of well-formed sentences, the sentences handed to the parser are the same however the bytes are split into reads.",
  "all sentence streams, all chunkings",
  "chunkings",
  [F+"driver/uart_gps.rs"])
p("GPS delta compression reproduces timestamps and satellite counts",
  "If a GPS reading is stored as a delta, decoding gives back the same integer timestamp and satellite count.",
  "all pairs of readings",
  "input space",
  [F+"driver/gps.rs: Deltable for GPSData"])
p("NMEA sentences are accepted only with a valid checksum and never crash the parser",
  "parse returns a message only if the XOR checksum matches; it never panics on any input string.",
  "all strings up to 84 bytes",
  "input space",
  ["tiny-nmea/src/lib.rs"])
p("Boot-time to unix-time conversion",
  "The lookup returns the recorded unix time at recorded points and linear interpolation between the two neighbouring points otherwise, and is monotone when the recorded points are.",
  "all point sets and queries",
  "input space",
  ["vl-host-lib/src/common/unix_timestamp_lut.rs"])
p("Moving averages equal the mean of the last N samples",
  "After any sequence of samples, the reported average is the arithmetic mean of the most recent min(n, window) samples.",
  "all sample sequences and window sizes",
  "unbounded",
  [F+"common/moving_average.rs", "ferraris-calibration/src/moving_average.rs"])
p("Periodic ticker does not drift",
  "The k-th tick of a periodic ticker is never earlier than start + k*interval, and lateness of one tick does not delay later ticks.",
  "all timings",
  "timing traces",
  [F+"common/ticker.rs"])
with open(os.path.join(os.path.dirname(__file__),"..","properties.jsonl"),"w") as f:
    for x in P: f.write(json.dumps(x, ensure_ascii=False)+"\n")
print(len(P))
