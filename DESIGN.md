# Formal model of McMaster-Rocketry-Team/rust-monorepo in Rocq (Coq 8.16.1)

The catalogue of properties is `properties.jsonl` (C01...); `MANIFEST.json`
maps every property to the exact theorems; `seeded/LOG.jsonl` records the
tests of the theorems against wrong programs.  This file says what is modelled
and how, what the theorems rest on, and what they do not cover.

## 1. Shape of the development

`rocq/theories/` contains, per component,

* `X.v`      - the executable model (total Gallina functions), every definition
               citing the file and lines of /repo it models, with its
               simplifications;
* supporting files - invariants and lemmas (for the file system:
               `TornCode` ... `FsBoot`);
* `PropX.v`  - the property theorems, each followed by `Print Assumptions`,
               with the small specification they are stated against and the
               non-vacuity examples.

A panic of the Rust code (index out of bounds, `unwrap`, overflow in a debug
build, `todo!`) is an explicit error value.  `&mut self` becomes a returned
state.  Async code is modelled at the granularity at which other tasks or a
power failure can intervene: the list of flash operations it issues (crash
model), the list of lock operations it performs (lock model), one step per poll
(wakers) or one step per message or tick (state machines).  A loop is structural
recursion or recursion on fuel with an explicit error when the fuel runs out,
and the theorems show that it does not.

Where the full English claim is false of the code, a theorem `..._refuted...`
proves the negation for a concrete (usually reachable) case and `..._partial`
proves the claim under the exact extra condition; these properties have status
`partial`.

### The file system (vlfs)

The largest part.  Layers, bottom up:

1. `Flash`: flash as `N -> byte`; a log of operations (256-byte page program, 4
   KiB sector / 32 KiB / 64 KiB block erase).  `crash f ops f'`: some prefix of
   the operations took effect and the next one did so only in part - of a page
   program any number of leading bytes, of an erase any subset of its 256-byte pages.
   `crash_ae`: the same with atomic erases.
2. `Hamming`, `Majority`, `TornCode`, `TableCode`: the error-correcting codes and what a
   torn page can decode to.
3. `Sectors`: free-space map and allocation with an arbitrary random source.
4. `ATable` ... `DirOps`: the allocation-table builder, header slots, scanning
   for the latest table, and all directory operations.
5. `FileIO` ... `OpenWrite`: writer, reader, the on-flash chain format.
6. `FsSpec`: the abstract store a user thinks of (a list of files with
   contents, open marks, unflushed tails) and what each call and each power
   loss may do to it.  `FsApi`: the implementation as a client drives it.
   `FsRefine`/`FsBoot`/`FsHistory`: **every history of calls, power losses
   and restarts starting from an unused chip (any contents without a table header in the four slots: erased, zeros, foreign data) is a history of the abstract
   store**.  The properties C06, C07, C17-C26, C53, C54, C73 ... are corollaries.

The CRC is a section variable: any function from byte lists to numbers below
2^32 (nothing else is needed except in C22, where "corrupted" means "CRC does
not match").  The random source is an arbitrary function.

## 2. Properties

| id | status | property | what is modelled | how it is proved |
|----|--------|----------|------------------|------------------|
| C01 | proved | File-table entry code: encode/decode identity and single-bit correction | bit-level `hamming_encode`/`hamming_decode` | linearity over GF(2), finite kernel computation over the 104 bit positions / 5356 pairs, lifted to all payloads by linearity |
| C02 | proved | File-table entry code: every double-bit error is detected | bit-level `hamming_encode`/`hamming_decode` | linearity over GF(2), finite kernel computation over the 104 bit positions / 5356 pairs, lifted to all payloads by linearity |
| C03 | proved | Erased or zeroed flash is never mistaken for a file entry | bit-level `hamming_encode`/`hamming_decode` | linearity over GF(2), finite kernel computation over the 104 bit positions / 5356 pairs, lifted to all payloads by linearity |
| C04 | proved | Quadruplicated page fields survive corruption of any one copy | `find_most_common` | case analysis |
| C05 | proved | File entries and table headers survive a write/read round trip | byte codecs of entry and header | big-endian codec lemmas + C01 |
| C06 | proved | Directory updates are atomic across power loss | whole vlfs under power loss (FsApi, FsSpec) | refinement FsHistory.simulation, then facts about the abstract store |
| C07 | proved | A completed directory update is durable and becomes the current one | whole vlfs under power loss (FsApi, FsSpec) | refinement FsHistory.simulation, then facts about the abstract store |
| C08 | partial | File ids are never reused | id allocation, torn footers | refutation by a torn footer reached from a blank chip; invariant for the partial |
| C09 | proved | File lookup by id is exact | binary search loop over entries | loop invariant |
| C10 | proved | Directory iteration lists exactly the matching files in creation order | the two iterators, interleaved with directory updates | induction; invariant on last id |
| C11 | partial | Concurrent directory iteration is monotone and complete for surviving files | the two iterators, interleaved with directory updates | induction; invariant on last id |
| C12 | partial | The directory never outgrows its table slot | address arithmetic of the builder | bound on the addresses of all programs; reachable 2518-file witness |
| C13 | proved | Free-space bookkeeping is exact | SectorMap, claim/return, arbitrary rng | invariant over operation lists |
| C14 | proved | A sector is never handed out twice | SectorMap, claim/return, arbitrary rng | invariant over operation lists |
| C15 | proved | Every sector handed out has been erased | SectorMap, claim/return, arbitrary rng | invariant over operation lists |
| C16 | proved | Allocation fails only when the device is full | SectorMap, claim/return, arbitrary rng | invariant over operation lists |
| C17 | proved | What is written is what is read | writer/reader on page-granular flash | representation invariant (chain of sectors), refinement |
| C18 | proved | Appending keeps previously written data | writer/reader on page-granular flash | representation invariant (chain of sectors), refinement |
| C19 | proved | Flushed data survives power loss during later writes | writer/reader on page-granular flash | representation invariant (chain of sectors), refinement |
| C20 | proved | Data loss on power failure is bounded | writer/reader on page-granular flash | representation invariant (chain of sectors), refinement |
| C21 | proved | Reported file size equals readable bytes | writer/reader on page-granular flash | representation invariant (chain of sectors), refinement |
| C22 | proved | Corrupted pages are never returned as good data | writer/reader on page-granular flash | representation invariant (chain of sectors), refinement |
| C23 | proved | Removing a file frees exactly its own sectors | directory + chains + open set | corollaries of the refinement; witnesses for refutations |
| C24 | partial | Files in use are protected | directory + chains + open set | corollaries of the refinement; witnesses for refutations |
| C25 | partial | A failed open leaves no trace | directory + chains + open set | corollaries of the refinement; witnesses for refutations |
| C26 | proved | Reboot reconstructs the free-sector map | directory + chains + open set | corollaries of the refinement; witnesses for refutations |
| C27 | proved | Reader/writer lock: mutual exclusion | RwLock poll state machine with wakers and cancellation | invariant over schedules; witness schedules |
| C28 | partial | Reader/writer lock: no lost wake-up | RwLock poll state machine with wakers and cancellation | invariant over schedules; witness schedules |
| C29 | partial | File-system operations do not deadlock each other | lock traces of all operations, any number of tasks | lock order argument for two groups; deadlocked schedules for the rest |
| C30 | partial | Background erase is invisible to readers and writers | ManagedEraseFlash over a chip with arbitrary erase timing | refinement to a flash without background erase |
| C31 | proved | Bit-packed stream round trip | BitSliceWriter/Reader and all primitives | printer/parser inverse; buffer-level arithmetic |
| C32 | partial | Delta log round trip | DeltaFactory, UnfactoredDelta, DeltaLogger, DeltaLoggerReader | stream grammar; induction over logs; witnesses |
| C33 | proved | Delta log error does not accumulate | DeltaFactory, UnfactoredDelta, DeltaLogger, DeltaLoggerReader | stream grammar; induction over logs; witnesses |
| C34 | partial | Fixed-point quantisation honours its declared error | fixed_point_factory, calculate-required-bits: exact (FixedPoint.v) and IEEE-754 in any format (FloatFixed.v) | exact rational arithmetic (Q); and a rounding-error analysis with Flocq, instantiated for every factory of the repository |
| C35 | partial | Logging an entry never overflows the logger's buffer | DeltaFactory, UnfactoredDelta, DeltaLogger, DeltaLoggerReader | stream grammar; induction over logs; witnesses |
| C36 | proved | A log cut short by power loss decodes to a prefix | DeltaFactory, UnfactoredDelta, DeltaLogger, DeltaLoggerReader | stream grammar; induction over logs; witnesses |
| C37 | proved | Ring log retention | RingDeltaLogger/RingFileWriter segment bookkeeping over an abstract directory; file type constants | invariant over histories |
| C38 | proved | Radio packets round trip | VLP packet builder/parser, telemetry packing | round trip through bit stream, cipher (any keystream) and Reed-Solomon; witnesses |
| C39 | proved | Radio framing arithmetic is self-inverse and fits the radio buffer | VLP packet builder/parser, telemetry packing | round trip through bit stream, cipher (any keystream) and Reed-Solomon; witnesses |
| C40 | partial | Malformed radio packets are rejected, not acted upon | VLP packet builder/parser, telemetry packing | round trip through bit stream, cipher (any keystream) and Reed-Solomon; witnesses |
| C41 | partial | Recorded uplink commands cannot be replayed | VLP packet builder/parser, telemetry packing | round trip through bit stream, cipher (any keystream) and Reed-Solomon; witnesses |
| C42 | proved | Flight phases advance in order | the three flight cores over any arithmetic (Numerics) | invariant over traces of ticks |
| C43 | proved | No ejection before apogee | the three flight cores over any arithmetic (Numerics) | invariant over traces of ticks |
| C44 | proved | Backup core deploys in order, once, after its delays | the three flight cores over any arithmetic (Numerics) | invariant over traces of ticks |
| C45 | proved | Manual-trigger core deploys in order after its delays | the three flight cores over any arithmetic (Numerics) | invariant over traces of ticks |
| C46 | partial | Deployment is announced when it happens | the three flight cores over any arithmetic (Numerics) | invariant over traces of ticks |
| C47 | proved | Armed means both switches | arming, debounce, pyro, event channel as schedule-driven step functions | invariants over schedules; witnesses |
| C48 | partial | A pyro channel fires at most once per boot, for a bounded pulse, only on its deploy event | arming, debounce, pyro, event channel as schedule-driven step functions | invariants over schedules; witnesses |
| C49 | partial | Debouncing | arming, debounce, pyro, event channel as schedule-driven step functions | invariants over schedules; witnesses |
| C50 | partial | Zero-copy channel is a lossless FIFO | ZeroCopyChannel, RpcChannel step functions | refinement to a queue on all schedules; witnesses |
| C51 | proved | Console link resynchronises after any garbage | console byte machine, GetListedFile loop, pull_file on the vlfs refinement | byte-level invariants |
| C52 | proved | Console requests with a bad checksum have no effect | console byte machine, GetListedFile loop, pull_file on the vlfs refinement | byte-level invariants |
| C53 | partial | Downloaded file equals stored file | console byte machine, GetListedFile loop, pull_file on the vlfs refinement | byte-level invariants |
| C54 | partial | Configuration updates are atomic | ConfigFile over vlfs | corollary of the refinement |
| C55 | proved | CAN identifiers and messages round trip | CAN ids, messages, strain-gauge control | arithmetic; trace induction |
| C56 | proved | Slave event queue | vl8 queue, codec, master/slave exchange | refinement; case analysis |
| C57 | partial | Control-protocol frames round trip and bad frames are rejected | vl8 queue, codec, master/slave exchange | refinement; case analysis |
| C58 | proved | GPS sentence framing is independent of UART chunking | UART GPS framing, GPS delta | splitting lemma over chunks; modular arithmetic |
| C59 | partial | GPS delta compression reproduces timestamps and satellite counts | UART GPS framing, GPS delta | splitting lemma over chunks; modular arithmetic |
| C60 | partial | NMEA sentences are accepted only with a valid checksum and never crash the parser | tiny-nmea parser | string induction; witnesses |
| C61 | partial | Boot-time to unix-time conversion | time lookup, moving averages, ticker (HostTime.v exact; FloatLut.v and FloatTime.v over Flocq f64/f32) | order lemmas over Q / any arithmetic; rounding-error induction over the window and over all samples for the IEEE versions; monotonicity across points (`PropLutMono.v`) by comparing each rounded interpolation with its two end points |
| C62 | partial | Moving averages equal the mean of the last N samples | time lookup, moving averages, ticker (HostTime.v exact; FloatLut.v and FloatTime.v over Flocq f64/f32) | order lemmas over Q / any arithmetic; rounding-error induction over the window and over all samples for the IEEE versions; monotonicity across points (`PropLutMono.v`) by comparing each rounded interpolation with its two end points |
| C63 | proved | Periodic ticker does not drift | time lookup, moving averages, ticker (HostTime.v exact; FloatLut.v and FloatTime.v over Flocq f64/f32) | order lemmas over Q / any arithmetic; rounding-error induction over the window and over all samples for the IEEE versions; monotonicity across points (`PropLutMono.v`) by comparing each rounded interpolation with its two end points |
| C64 | partial | Distinct log kinds have distinct file types | RingDeltaLogger/RingFileWriter segment bookkeeping over an abstract directory; file type constants | invariant over histories |
| C65 | partial | A power loss cannot exhaust the file ids | id allocation, torn footers | refutation by a torn footer reached from a blank chip; invariant for the partial |
| C66 | partial | FIFO mutex: exclusion and wake-up | FairMutex poll state machine | invariant: the queue is, in order, the waiting tasks not yet told (under the stated discipline); refutations for each missing condition |
| C67 | partial | Rollover never deletes the segment being written | RingDeltaLogger/RingFileWriter segment bookkeeping over an abstract directory; file type constants | invariant over histories |
| C68 | proved | Radio packets survive byte errors | Reed-Solomon over GF(256) concretely | root/distance argument over the concrete field |
| C69 | proved | No deployment unless armed | arming, debounce, pyro, event channel as schedule-driven step functions | invariants over schedules; witnesses |
| C70 | partial | A published deployment fires its channel | arming, debounce, pyro, event channel as schedule-driven step functions | invariants over schedules; witnesses |
| C71 | partial | In-memory calls return their own response | ZeroCopyChannel, RpcChannel step functions | refinement to a queue on all schedules; witnesses |
| C72 | partial | A console call returns the handler's response | console byte machine, GetListedFile loop, pull_file on the vlfs refinement | byte-level invariants |
| C73 | proved | Removing one file reports exactly what happened | directory + chains + open set | corollaries of the refinement; witnesses for refutations |
| C74 | proved | Strain-gauge recording follows the CAN messages | CAN ids, messages, strain-gauge control | arithmetic; trace induction |
| C75 | partial | Control-protocol answers belong to their requests | vl8 queue, codec, master/slave exchange | refinement; case analysis |
| C76 | partial | A command reported as sent was received by the rocket | ground and rocket radio clients and the half-duplex radio between them, as one transition system (VlpLink.v) | inductive invariants over all runs, ranking function, witness runs |
| C77 | partial | Sending a command always returns | ground and rocket radio clients and the half-duplex radio between them, as one transition system (VlpLink.v) | inductive invariants over all runs, ranking function, witness runs |
| C78 | partial | Commands are never invented and are carried out at most once | ground and rocket radio clients and the half-duplex radio between them, as one transition system (VlpLink.v) | inductive invariants over all runs, ranking function, witness runs |
| C79 | proved | Vertical speed cannot be thrown into a fall by the barometer | vertical-speed and baro-reading filters over exact arithmetic and any low-pass stage (VerticalSpeed.v) | trace induction with telescoping bound; invariant relating held reading to history |
| C80 | proved | Pressure spikes are ignored for exactly half a second | vertical-speed and baro-reading filters over exact arithmetic and any low-pass stage (VerticalSpeed.v) | trace induction with telescoping bound; invariant relating held reading to history |
| C81 | proved | The maxima in telemetry are the maxima of the flight | TelemetryPacketBuilder over floats with NaN/infinities (Telemetry.v) | fold lemma for f32::max; composed with C38 |
| C82 | partial | The unix clock is right once it is ready | UnixClock event machine and MultiWakerRegistration slots (Clock.v) | invariants over event lists; refinement of the slots to a duplicate-free list |
| C83 | proved | A registered waker is woken exactly once | UnixClock event machine and MultiWakerRegistration slots (Clock.v) | invariants over event lists; refinement of the slots to a duplicate-free list |
| C84 | proved | A log of enum records reads back, cut anywhere | writer/reader of create_serialized_enum! over any fixed-size codec, reader with arbitrary pieces (EnumLog.v) | induction over records and read calls |
| C85 | partial | Strain-gauge files are complete and dated | strain-gauge storing task and RingFileWriter rotation as an interleaving machine (EnumLog.v) | invariants over schedules; witness for the race |
| C86 | partial | The delete-logs command deletes logs and nothing else | the selection closure over the vlfs model (PropDelete.v) | removal described for every reachable state without assuming that no unmarked writer is open (the writers are forgotten in the representation: PropDirectory.v, forget), plus the type table; refutation: the log under a writer goes |
| C87 | proved | Buffered logger: order, freshness, no silent loss unless full | BufferedLogger and its runner, flush RPC and stop signal, over the one-subscriber queue, as an event machine (PubSub.v) | invariant over event lists; a decreasing count of remaining steps for closing |
| C88 | proved | BufferedLogger::flush never completes | BufferedLogger and its runner, flush RPC and stop signal, over the one-subscriber queue, as an event machine (PubSub.v) | invariant over event lists; a decreasing count of remaining steps for closing |
| C89 | proved | Closing a buffered logger drains it | BufferedLogger and its runner, flush RPC and stop signal, over the one-subscriber queue, as an event machine (PubSub.v) | invariant over event lists; a decreasing count of remaining steps for closing |
| C90 | proved | Buzzer tones | BuzzerQueue over the same queue with playing times (PubSub.v) | the same queue invariant; induction over events |
| C91 | proved | Merged logger | MergedLogger over two arbitrary loggers (PubSub.v) | induction over calls |
| C92 | partial | Pyro continuity monitoring | pyro! macro, the two continuity monitors with the device locks, the ground-test receive task (Pyro.v) | invariant over schedules; case analysis |
| C93 | proved | Indicator patterns | IndicatorController::run_single (Indicator.v) | induction over segments and repetitions |
| C94 | proved | Ground-test firing | pyro! macro, the two continuity monitors with the device locks, the ground-test receive task (Pyro.v) | invariant over schedules; case analysis |
| C95 | proved | Strain-gauge processing | SGChannelProcessor and sg_low_prio_main over any filter (SgProcess.v) | loop lemma per read, invariant over reads (batch, frame, position) |
| C96 | proved | Sensor delta logs are faithful in machine arithmetic | Deltable instances of the f32 sensors, DeltaFactory and UnDeltaFactory, over IEEE floats (SensorDelta.v) | error analysis of one step (Flocq rounding lemmas), induction over readings; each factory of the repository is shown to be declared |
| C97 | partial | GPS delta log is faithful | GPSData subtract/add_delta with i64/u8/i8 casts and mixed f64/f32 (SensorDelta.v) | case analysis of one step, the induction of C96; witness for a clock stepping back |
| C98 | partial | Low-power mode keeps the rocket listening and silent | VLPUplinkClient::run with its low-power flag, in the two-machine link model (VlpLink.v) | invariant over all labels; induction over runs; explicit run for the refutation |
| C99 | partial | IMU calibration recovers the sensor | CalibratorInner (accumulators, calculate), CalibrationInfo::apply_calibration over exact reals (Ferraris.v) | linear algebra: the calculated offsets, scale and rotation matrices are those of the sensor; general refutation and instance for unbalanced counts |
| C100 | proved | Interactive calibration follows its script and never stalls | InteractiveCalibrator with its stillness window (Ferraris.v) | invariant over readings (position in the script, contents of the accumulators, timing of the current phase); bound on the time without a report for progress; the window holds the differences of a chain of readings (PropStill.v) for the converse |
| C101 | partial | A stored IMU calibration is read back bit for bit at every later start | CalibrationInfo::serialize/deserialize, calibrate program, read_imu_calibration_file on the file system model (CalibFile.v) | byte lemma; composition with the refinement theorem of the file system (C54 machinery) |
| C102 | partial | Bytes streamed to flash come back in any pieces, with the same checksum | `FlashIO.v`: read_4kib/write_256b contracts with an arbitrary effect on the five command bytes, the read/write loops, U8Crc, Crc::calculate, FlashReader, FlashWriter | loop invariants over chunks and pages; checksum invariant (words of the stream so far + held-back bytes) preserved by every slice; writer invariant (full pages programmed, tail in the buffer) |
| C103 | partial | What a ground-station console is told | `Gcm.v`: the receive signal, the downlink channel of capacity one, the RPC channel of two capacity-one queues, the GCM serving loop, any number of consoles; the radio is an event source | invariants over every schedule (subsequence invariant of the mailbox; in-flight invariant of the station); concrete schedules for the refuted parts |
| C104 | partial | Pulling all files of a type saves every one of them, exactly | `PullAll.v`: GetListedFile, list_files, pull_file, pull_files over the file-system model and the iterator of `Iter.v` | induction over the iterator steps on the fixed directory of a reachable state (refinement theorem), then over the files; opening and closing restore the state exactly |
| C105 | partial | A device starts in the mode it was configured for, and only in a configured one | `Boot.v`: the mode choice of vl_main, and lives of a device over the file-system model (starts, foreign calls, losses, SetDeviceConfig complete or interrupted); the configuration codec is abstract, with decode (encode c) = c | invariant over every life, by the refinement theorem and the phases of a configuration write (C54): the file is at rest and its contents are among the candidates |
| C106 | partial | The host's CSV is the flight's log | `HostLog.v`: the bit codecs of f32, f64 and packed integers, the barometer and IMU log types, parse_delta_readings (both passes) and the CSV, over the generic logger of `DeltaLogger.v`, IEEE floats of `FloatFixed.v` and the lookup of `FloatLut.v` | codec round trips by bit arithmetic and Flocq; logger and reader meet at the value level (decode_flushed, C36); error per row from the declared factories; lookups from C61 |
| C107 | proved | A file written by one task is not disturbed by what other tasks do to the file system | relation `shared` of `PropShared.v` over the calls of `FsApi.v`: own operations interleaved with any legal calls of others | invariant of the abstract view (durable part, pending part, no two writers on one file) through the refinement theorem, call by call, and its loss outcomes |
| C108 | partial | The vacuum-chamber test records the deployments | `Vacuum.v`: the three tasks of vacuum_test_main (readings, log, indicator) with the queue of capacity 3 over the backup core; the log file through `shared` of C107 | subsequence invariant over every schedule; the file from C107 (survival) and C84 (truncated logs) |
| C109 | partial | Continuity, arming and GPS readings follow the power board's events | `Vl8Drivers.v`: the three drivers, the event slot and the waker registration of Master, with tasks polled in any order | invariants over every schedule: stored values are a subsequence of the reported ones (all of them under in-turn fetching), and every waiting task is ready or registered |
| C110 | partial | A configuration written on the laptop reaches the device, works, and can be replaced | `HostConfig.v`: the host configuration and its conversion, RkyvString, UTF-8, LoraConfig, and what becomes of a start, over the lives of `Boot.v`; the rkyv codec is abstract | C105 for every life; UTF-8 is a prefix code (cut theorem by induction on the characters); case analysis for the radio settings |
| C111 | partial | Strain-gauge CSV files hold what was measured | `HostSg.v`: half precision and its bytes, parse_sg_data, the CSV writer and the loop over the pulled files, over the log format of `EnumLog.v` and the processing of `SgProcess.v` | C84 and C61 per file; induction over the files; composition with C95; Flocq error bounds |
| C112 | proved | The file system obeys the rules of the flash chip, so that tests in memory speak for the chip | ChipRules.v: what the Flash trait and the chip require of each operation; PropChip.v: MemoryFlash and FileFlash as overwriting stores, with power losses | the predicate `traced`, which follows every call through the model, now carries by_the_rules for the operations it records (aligned erases from the region allocator, blank pages from the table builder and the file writer); equality of chip and store by induction over the operations |
| C113 | proved | The first use of a chip, whatever it holds | FsApi.unused: the chips a history may start from; FsBoot.Fresh: an unused chip or one whose first formatting was interrupted | histories now start from any unused chip, so all theorems about histories cover it; the first start is computed (read_latest_none, format_run) and its interruptions are classified in fresh_torn/fresh_prog |
| C114 | proved | Typed integers written to a file come back, and a file cut short gives a prefix of them | typed reads and writes of io_traits.rs over the reader and writer of the file-system model (PropValues.v) | C48/C54-style refinement: bytes come back or are cut to a prefix; big-endian round trip; typed reads of a prefix by induction |
| C115 | proved | Simulated delays end no earlier than their deadline and no sleeper is forgotten | clock.rs as an event machine with a heap whose top may be any least element (SimClock.v) | invariant over runs: every registered waker is in the future, every sleeper is ready or registered |
| C116 | partial | The simulators' stand-ins for hardware behave like the hardware | virtual serial line, switches, sensors, launch-simulator line and radio as state machines (VSerial.v) | induction over operations; explicit runs for the refuted parts |
| C117 | partial | An animation passes through its keyframes at their times and moves evenly in between | AnimationBuilder and AnimationPlayer over exact rationals (Keyframe.v) | induction over segments |
| C118 | proved | A file open for reading is not disturbed by other tasks | the reader of FileIO.v (read_slice), with the state of the reader carried from request to request, and all calls of FsApi.v in between (reads_among in PropReader.v) | Each call leaves the sectors of every file it is not about unchanged: shown call by call from the write, directory and open lemmas (extend_same, flush_same, close_same, create_same, create_open_same, remove_same, and the last conjunct of open_write_op). The invariant of the reader (RInv) speaks only about the sectors of its file, so it survives; the file stays listed, marked and unchanged by the refinement. |
| C119 | partial | Console sessions: every request answered, pulls exact among other activity, files released; the device survives a broken line | ConSession.v: the device with both consoles (create_rpc.rs:87-184 as vl_main.rs:134-157 starts it), file handlers of Console.v, events Task/Req/Plug/Unplug; listing, configuration and radio requests are not in it | PropSession.v: invariant that every console's reader is in the Reading relation of C118 and that no two consoles hold the same file, preserved by every event; the state of a console is a function of the events (about); refutation by a concrete reachable device |
| C120 | proved | Live strain-gauge samples on the console come in order, none twice, and at most three behind | LiveSg.v: the subscriber of a console session over the one-subscriber queue of PubSub.v | PropLive.v: simulation of the queue by two counters (samples since the session began, samples answered or passed over), for every event sequence |
| C121 | partial | The start-up check keeps a broken rocket on the ground and says so | SelfTest.v: self_test.rs and the beginning of avionics_main; each driver call succeeds or fails; buzzer from PubSub.v, lights from Indicator.v | case analysis on the calls; the melody by an invariant of the buzzer task over its polls; the red light by induction on the turns of the pattern |
| C122 | partial | Clearing the strain-gauge board's data from the console | ClearData over the vlfs model; the ring loggers of Ring.v after it (PropClear.v) | C06/C07/C23 without client discipline; induction on the number of rollovers |
| C123 | partial | Flight events are announced on the CAN bus | can_tx_flight_event_fut with its own capacity-10 subscriber, on top of the arming/core/pyro model of C48 | invariant over runs: sent plus unread is a sublist of (and, keeping up, equal to) what was published; shape of everything the running cores can publish |
| C124 | partial | The camera records from arming until a minute after landing | camera_ctrl_fut incl. the 60 s wait during which it does not read | invariant giving every command its cause; equality with the switches in the history; computed runs for the refutations |
| C125 | partial | Telemetry shows the state of the flight cores | flight_core_event_consumer and the six fields it writes | invariant over runs |
| C126 | proved | Beeps tell the position of the arming switch | hardware_arming_beep_fut with its capacity-1 subscriber on top of the arming manager | invariant over runs |
| C127 | partial | The strain-gauge board's light tells its status, and the board records by itself | led_fut, the start of store_sg_fut, the flags, SetAdcEnable; CAN tasks absent from the join | invariant: what was shown is complete cycles plus a prefix, each chosen by the flags at its start |
| C128 | proved | Measuring the flash does not change it, and its figures are right | the wrapper with its five methods and figures over an arbitrary chip, as events begin / end / reset / read (StatFlash.v) | induction over the events, the chip and the caller arbitrary (PropStat.v) |
| C129 | proved | A full flash stops the recording, not the flight | the storage check, the sensor and GPS tasks, the three buffers and their writers, space used by others (Storage.v) | invariant on free space, queue lengths and arrivals since the last check, by reverse induction over the history (PropStorage.v) |
| C130 | proved | The recorders change files on schedule and never two at a time | the segment timer of the ring logger on the ticker of HostTime.v and the six configurations (Storage.v) | induction over the changes of file, then arithmetic on the plan modulo 300 s (PropStorage.v) |
| C131 | proved | The printed LoRa key reads back as the same key | format_lora_key over lists of bytes (LoraText.v) | against a separate JSON array reader, by induction over the key (PropLoraText.v) |
| C132 | partial | How far back the flight recorder reaches | the ring of Ring.v together with the schedule of Storage.v | induction over the rollovers: the directory is a suffix of all files ever made; then arithmetic on the schedule (PropRetention.v) |
| C133 | partial | What the radio commands do to an avionics computer in flight mode | Commands.v: vlp_rx_fut's seven commands, low_power_mode, the telemetry flag and the reset, around the system of Avionics.v (arming, cores, pyro tasks) and beside VlpLink.v | an invariant over all histories relating the state to the commands received since the last start, with C69 for the outputs; the disagreement of the two low-power modes by one run of both models |
| C134 | partial | The avionics status on the CAN bus is regular and current | StatusBus.v: the status task with its ticker beside the other senders, arming and mode as events, lost transmissions; the receiving board is Can.v | two invariants over all histories (what the message in hand and each frame was made from; how far the last one that got through is behind), the second under stated bounds on lateness and loss; the board by C74 |
| C135 | partial | The window of the time-based radio nonces | VLP.v: time_nonce and time_nonces, the branches of get_nonce and get_past_nonce that the constant disables | injectivity of the byte encoding by bits, and linear arithmetic on tenths of a second |
| C136 | proved | When the flight cores report height and speed | FlightCore.v: the reports among the events of each tick | the published-states invariant of C42 tells launch from the history; case analysis of one tick |
| C137 | partial | The time on the CAN bus | the time-sending task of the avionics computer on top of the GPS clock model (Clock.v), its one-place update queue (PubSub.v), the CAN frame (Can.v) and the reference taken by the receiving board (TimeBus.v) | invariant over all interleavings by induction on the history: sent ++ held ++ queued is a sublist of the announcements and ends with the newest; a second invariant bounds the age under the promptness hypothesis; composed with C82 (pulses) and C55 (frame round trip); two computed counterexamples |
| C138 | partial | No device of the flight computer is claimed twice | the claims and releases of devices in vl_main, the four modes, the self test and the pyro tasks, as lists of lock operations under an arbitrary schedule (Claims.v) | general lemma: tasks that take and release one device each, all different, never collide under any schedule (ownership invariant); case analysis over the starts; converse by a two-step schedule |
| C139 | partial | The dates of the flight log | The logging task of the unix time (avionics/mod.rs:586-602): the clock of Clock.v, a channel holding one update, the log of (time since boot, unix time) pairs, and the host table of HostTime.v over any subset of the pairs. | Invariant over every history (dinv), then a convexity argument on the interpolation; the extrapolated side is proved with a growing bound and refuted as a uniform one. |
| C140 | partial | The dates of the strain-gauge board's battery log | The five-minute task store_battery_unix_time_fut (mid_prio.rs:341-363) over the ticker of HostTime.v, the time left by the CAN receiver, and the host table (SgDates.v). | Invariant over every history (binv) relating log, ticks and received times; the interpolation lemma of C139; explicit bounds for the refuted parts. |

## 3. Trusted base

* The kernel of Coq 8.16.1 (including its VM: `vm_compute` is used for small
  closed computations only) and `coqchk`.
* `Print Assumptions` answers **"Closed under the global context"** for every
  property theorem except those about IEEE floats (PropFloat.v, PropFactory.v,
  PropSensors.v, PropGpsLog.v, FloatTime.v, PropLut.v, i.e. C34_*_ieee*, C34_repo_factories,
  C34_*_declared, C61_ieee_*, C62_*_ieee*, C96_*, C97_*), whose statements mention real numbers through Flocq, and those
  about IMU calibration (PropFerraris.v, PropCalib.v, PropStill.v: C99_*, C100_*), which are stated over real numbers.
  Those rest on the four axioms of the standard library's real numbers and nothing else:
  `ClassicalDedekindReals.sig_forall_dec`, `ClassicalDedekindReals.sig_not_dec`,
  `FunctionalExtensionality.functional_extensionality_dep`, `Classical_Prop.classic`.
  No axiom of ours and none of another library (Flocq adds none).  (`coqchk -o` over the loaded libraries
  additionally lists `Coq.ssr.ssrunder.Under_rel.*`, module-type parameters of the
  standard library's ssreflect plugin that no theorem uses.)
* The reading of the Rust source: the model is written by hand from /repo.  Each
  definition cites its source lines.
* Section variables (appear as universally quantified parameters in the final
  statements): the CRC (any 32-bit function), the stream cipher keystream, the random source,
  number formats of the flight cores (any carrier with any operations),
  f32 parsing, rkyv layouts (with their round-trip contract as a hypothesis of the theorem).

## 4. What is modelled and what is not

Modelled (function by function): vlfs/src/fs/* completely (hamming, utils,
sector_management, allocation_table, at_builder, init, iter, reader, writer,
mod), vlfs/src/utils/{rwlock,fair_mutex}.rs, vlfs/src/flash/managed_erase_flash.rs;
firmware-common: delta_logger/{bitslice_*,delta_factory,delta_logger,ring_*},
fixed_point, variable_int, vlp/{packet,packet_builder,telemetry_packet}, avionics
{flight_core, backup_flight_core, backup_backup_flight_core, arming_state,
flight_core_event_channel, pyro and arming parts of mod.rs}, debounced_signal,
zerocopy_channel, rpc_channel, console/{create_rpc,vl_rpc}, config_file, can_bus/*,
strain_gauges CAN part, driver/{gps,uart_gps,can_bus}, moving_average, ticker;
vl8-ctrl-protocol {codec,master,slave}; tiny-nmea; calculate-required-bits;
vl-host-lib/common/{pull_file,unix_timestamp_lut}.
Also modelled: vlp/{downlink_client,uplink_client}.rs and the radio between them (VlpLink.v).
Also modelled: avionics/vertical_speed_filter.rs, avionics/baro_reading_filter.rs (VerticalSpeed.v); the biquad coefficients and f32 rounding are not.
Also modelled: vlp/telemetry_packet.rs TelemetryPacketBuilder (Telemetry.v); common/unix_clock.rs and multi_waker.rs (Clock.v).
Also modelled: common/serialized_enum.rs, strain_gauges/mid_prio.rs (store task), ring_file_writer.rs (get_writer, create_new_segment interleavings), ozys/parse_sg_data.rs (EnumLog.v); the DeleteLogs command (PropDelete.v).
Also modelled: delta_logger/{buffered_logger,merged_logger}.rs, common/buzzer_queue.rs (PubSub.v); indicator_controller.rs run_single (Indicator.v); pyro_macro.rs, the continuity monitors of avionics/ground_test_avionics and the ground-test firing (Pyro.v).
Also modelled: strain_gauges/low_prio.rs (SgProcess.v); the biquad, f32/f16 arithmetic and the FFT are parameters.
Also modelled: fixed_point.rs and calculate-required-bits in IEEE arithmetic (FloatFixed.v); the Deltable instances of driver/{adc,barometer,imu,mag,gps}.rs (SensorDelta.v); log2 in the bit count is exact, NaN payloads are not distinguished.
Also modelled: ferraris-calibration/src/{calibrator_inner,calibrator,calibration_info,interactive_calibrator,moving_average}.rs over exact reals (Ferraris.v); the calibration file (CalibFile.v).

Not modelled: hardware drivers and traits, the ESKF filter mathematics (its
outputs are arbitrary inputs of the flight-core theorems), LoRa radio timing, the
rkyv serializer itself, the desktop programs (launch-simulator, vl-cli, vl-simulink-bridge) apart from the parts of C115, C116 and C117
and logging macros.

Idealisations, all stated at the definitions concerned:

* *Arithmetic.*  u8..u64 arithmetic wraps or panics in the model where the
  property is about it; elsewhere the model uses unbounded numbers together with a
  range hypothesis.  f32/f64: the flight cores are proved for **any** arithmetic;
  fixed point and the sensors' delta logs are proved both over exact rationals and, with every
  rounding, over IEEE-754 f32/f64 (Flocq); time conversion uses exact rationals.
* *Power loss.*  A page program may stop after any byte (programs that stop in the
  middle of a byte or program bytes out of order are not covered).  An erase may
  stop half way (any subset of its pages erased) during boot, writing, flushing, closing and
  during every directory change that does not follow an interrupted one
  (`FsApi.torn_erase_ok`, C06_torn_erases_covered).  Two cases are covered with
  atomic erases only, because the claim can fail otherwise: opening for
  append (it erases and rewrites the live last sector), and the second of two interrupted directory
  changes in a row (the half-erased remains of the first can then decode).
* *Time-outs of flash drivers* and read errors of the bus are not modelled: every
  flash operation succeeds or the power fails.
* *Sharing.*  vlfs calls of one history are atomic with respect to each other; what
  can go wrong when they interleave is the subject of C11, C27-C29, C66.

## 5. Findings (each backed by a theorem unless marked *)

vlfs
* MAX_FILES (2518) is never enforced; the 2519th file is written outside the slot (C12_refuted).
* A footer torn by a power loss can decode to a wrong largest id: ids are reused or exhausted (C08/C11/C65_refuted).
* `create_file_and_open_for_write` does not mark the file open (C24_refuted).
* `open_file_for_write` failing with DeviceFull leaves the file marked open (C25_refuted).
* RwLock: lost wake-up, cancelled writer blocks readers (C28); lock-order inversions deadlock (C29); FairMutex swallows wake-ups (C66).
* ManagedEraseFlash checks only the start address of a read, and a reset loses the pending erase (C30).
* Opening a file for appending moves its last sector; a power loss while the old one is being erased page by page can leave damaged pages.*
* `create_file` with type 0xFFFF produces an entry that looks like the footer.*

Logging
* Adjacent unix-time logs are reordered or lost (C32); 4-byte records overflow the buffer (C35); NaN panics (C34); GPS and IMU loggers share file types 9 and 10 (C64); external deletion makes the ring delete the open segment (C67); `segments_per_ring = 0` panics (C37).
* GPS delta: time going backwards decodes as +255 s; 127 -> 128 satellites panics (C59).

Radio and links
* The VLP nonce is constant, recorded uplink packets are accepted again (C41); short framed packets and bad pyro numbers panic (C40).
* Console: a corrupted page silently truncates a pulled file (C53); a late response is taken for the next call's (C72); reset can complete an interrupted request (C51).
* vl8: short frames with a consistent length byte are read out of bounds (C57); late responses acknowledge other commands (C75).
* CAN: priority 7 is documented as highest but loses arbitration; malformed data panics the receiver (C55).
* tiny-nmea panics on valid-checksum sentences with too few or too many fields (C60). GPS lines not starting with `$` are duplicated depending on chunking (C58).

Flight
* The primary core never publishes the chute-deployed events (C46); `DidNotReachMinApogee` goes to Landed without announcing it; drogue and main on one channel give two pulses, the second cut short (C48); a deploy event is lost when more than ten are unread (C70); the first debounced sample is not debounced (C49).
* ConfigFile::write removes the old configuration first (C54_refuted); when the old file is held open the write reports success but has no effect (C54_stale_when_open).
* ZeroCopyChannel overwrites unread values when full (C50); a cancelled RpcChannel call leaves a stale response (C71).
* UnixTimestampLUT divides by zero on duplicate boot times (C61); the running-sum moving average loses small samples in IEEE arithmetic (C62); `next_skip_missed` does not wait when called exactly on a multiple (C63_skip_missed_no_wait).
Radio clients (VlpLink.v)
* Acknowledgements do not name the command they acknowledge: a late one is credited to the next command (C76_refuted_stale_acknowledgement).
* One radio error inside `send`'s exchange and the caller waits forever (C77_refuted_one_error_hangs_the_caller).
* Retries are delivered again: one `send` can fire a ground-test pyro five times (C78_refuted_at_most_once).

Telemetry and clock
* A NaN battery voltage, temperature, altitude or air speed panics create_packet (C81_packet_panics_iff_nan). In avionics/mod.rs the battery task is commented out, so the transmitted voltage is always 0.
* A pulse stamped in the first 800 ms after boot, before any GPS message, sets the clock to the first second of 1970 and reports it ready (C82_refuted_boot_pulse): the initial (0, 0) counts as a message received at boot.
* The eleventh task that waits for the clock panics (C82_refuted_eleventh_waiter).

Enum logs, strain gauges, delete logs
* RingFileWriter::create_new_segment swaps the writer, awaits the old file's close and only then sets new_segment and clears dirty: a reading stored in between goes undated to the head of the new file, and its dirty mark is lost, so the next rotation is skipped (C85_refuted_file_begins_with_time).
* An unknown record number, like the end of the file, ends a log without a word (C84_unknown_number_ends_the_log).
* DeleteLogs leaves the ground-test barometer log, the vacuum-test logs and the strain-gauge logs (C86_logs_left); run while the ring loggers are active it is the external deletion of C67_refuted_after_external_deletion.

Buffered logger, pyros, ground test
* BufferedLogger::flush awaits an answer the runner never sends, so it never returns (C88); the ground-test firing task ends with it, so its `join!` never finishes.
* BufferedLogger answers Ok(true) for readings logged before the runner subscribes, and drops them (C87).
* pyro_macro.rs reads the continuity of Pyro3 from pyro2_cont, and the two monitors hold their device lock while they wait, taking it with try_lock().unwrap(): a flight profile with pyros 2 and 3 (or one pyro for both) panics at boot (C92).
* Ground-test mode handles one packet and then never listens again, and fires without looking at the arming state (C94).
* An indicator pattern of zeros only would spin without ever yielding (C93); no such pattern is used.

GPS log
* GPSData::subtract tests only `timestamp > 255` and then casts to u8: when the GPS clock steps back by n seconds the log says 256 - n seconds forward (C97_refuted_backwards, C97_backwards_instance).

IMU calibration
* The gyroscope offset is the mean over ALL static readings, so unequal numbers of readings in the two directions of an axis leave the leak of gravity in it: the device at rest then reads a turn (C99_refuted_unbalanced). The interactive calibration does not balance the numbers.
* The stillness test averages the angular acceleration over 50 samples: a device turning at a constant rate counts as still (C100_moves_on, C100_end_reachable).
* A power loss while a calibration is being stored can leave an empty file, and read_imu_calibration_file panics on every file shorter than 156 bytes (C101_refuted_power_loss_panics).
* CalibrationInfo::deserialize casts a byte pointer to f32, which is undefined behaviour when the buffer is not 4-aligned (not modelled).

Host tool
* pull_flight_data pulls AVIONICS_BARO_LOGGER_TIER_1 twice and parses the second copy as tier 2.

Flash transfer layer
* Flash::read reads 4096 bytes at a time into overlapping parts of the buffer without restoring the five command bytes: a read of more than 4096 bytes returns the next command over the last five bytes of each piece (C102_refuted_long_read).
* Flash::write of a length that is not a multiple of 256 programs whole pages (C102_refuted_short_write), and FlashWriter/FlashReader's checksum leaves out up to three bytes at the end of a stream (C102_refuted_last_bytes_unchecked).

Ground station
* PollDownlinkPacket answers with the first packet since the previous poll, not the latest (C103_refuted_stale).
* Both consoles share one RpcChannel whose calls can interleave: each can get the other's status (C103_refuted_swapped_statuses).
* SendUplinkPacket outside ground-control mode waits for ever (C103_refuted_hangs_outside_gcm); the console then answers nothing more.
* pull_files stops at the first file in use and leaves the newer ones unsaved (C104_refuted_closed_file_not_saved); GetListedFile answers an iterator error like the end of the list (C104_refuted_damaged_entry).

Seen while reading, not modelled
* rotation_between(...).unwrap() at launch panics when the two vectors are opposite.
* In avionics main the primary flight core is commented out; only the backup core flies.
* FileReader::read drops its status: a corrupted page in the middle of a file is skipped by read_exact silently.
* CalibrationInfo, LoRa and sensor code unwrap device errors (a radio error in prepare_for_rx panics; a NaN reading panics the delta logger's fixed-point conversion in debug builds).
* In the strain-gauge firmware the CAN receive and transmit tasks are commented out of the join!.
* TieredRingDeltaLogger's body is todo!().

Host CSV (HostLog.v)
* Dates are looked up per file: a log file with fewer than two unix times stays undated even when its neighbours have them (C106_refuted_times_per_file; the source says "FIXME should be per-file" the other way round).
* `pull_flight_data` builds baro_tier_2.csv from tier-1 files decoded with the tier-2 interval; the rows are garbage and the tier-2 files are never pulled (C106_refuted_tier_2_csv).

Vacuum-chamber test (Vacuum.v)
* `vacuum_test_main` logs a state change with a write and a flush while barometer readings keep publishing air-speed events into the same queue of 3: a state announced during the write is pushed out by the next three readings (15 ms) and never logged, beeped or shown.

Power-board drivers (Vl8Drivers.v)
* Master keeps one event: poll_event overwrites it when its driver has not been polled yet, and the driver goes on returning the old continuity or arming state (C109_refuted_overwritten). Two drivers on one channel steal each other's events (C109_refuted_two_drivers).
* More than ten waiting tasks: the rest are never woken (C109_refuted_eleven_tasks). A sentence with bytes from 128 on can panic in MasterGPS (C109_refuted_sentence_panics).

Configuration from the laptop (HostConfig.v)
* Radio settings are checked neither by the host tool nor by SetDeviceConfig; LoraConfig's methods panic on values radios do not have. In GCM mode the panic comes at every start before the consoles are polled, with or without USB: the device can no longer be reconfigured (C110_refuted_bricked). In avionics mode the flight computer panics instead of flying (C110_refuted_no_flight).
* Names are cut after 64 bytes, possibly inside a character; `vl-cli detect` then panics (C110_refuted_name_panics).

Strain-gauge CSV (HostSg.v)
* Row times are the start of the first raw read of a group of 40 plus 5 ms per row: gaps between raw reads are not seen (C111_refuted_row_times), and the sample of a row is the filter output at the end of its read.
* A reading with a channel number from 4 on, or a NaN start time in a file with two unix times, panics the host and nothing is written for the later files (C111_refuted_channel, C111_refuted_nan). Samples beyond 65504 become infinite in half precision.
* `get_unix_timestamp` is not monotone for arbitrary points: with increasing points whose unix times differ by large factors, a query one ulp before the second point is given a date after it (`C61_ieee_refuted_monotone`). For unix times of one era it is monotone (`C61_ieee_monotone`).
* `MemoryFlash::new(None)` (vlfs/src/flash/memory_flash.rs:15-21) starts as zeros, not as the 0xFF of an erased chip, and both stand-ins overwrite instead of clearing bits: they cannot show a page being programmed twice. C112 proves that the file system never does it.
* A chip whose four allocation tables are all unreadable is formatted on start and reported as an empty, healthy file system (vlfs/src/fs/init.rs; C113_no_table_is_formatted): the loss of all files is not reported.
* vl-simulink-bridge `VirtualSerial::split` makes a new receiving half with an empty left-over buffer: bytes already taken off the channel are lost (C116_refuted_split_loses); an empty write makes the peer's read return 0, i.e. end of stream (C116_refuted_empty_write).
* launch-simulator's serial line panics when a written chunk is longer than the reader's buffer (C116_refuted_long_chunk).
* launch-simulator/src/keyframe.rs: a first segment of length 0 yields NaN at time 0, and an animation of a single keyframe panics on its first update (C117_refuted_*).
* A console's line failing while a file is open (USB cable pulled during a pull) drops an unclosed `FileReader`, whose Drop panics: the whole device stops (C119_refuted_unplugged_during_a_pull). The serial console's server is started once: after one line error it is not served again until a restart (C119_serial_console_serves_once).
* avionics/mod.rs:172-179 plays the melody of a passed self test when it has failed (lines 160-163 and 174-177 are the same tones): by ear a rocket that will not fly cannot be told from a good one, only its red light tells (C121). self_test.rs:15 unwraps the reset of the magnetometer, which is otherwise treated as not critical: if it fails the device panics without light or sound (C121).
* pyro_macro.rs: with pyros 1 and 3 the continuity reported for pyro 3 is that of channel 2 (C92_refuted_pyro3_is_channel_2).
* Logs deleted while they are written (C86, C122): the loggers' files come from write_new_file_and_open_for_write, which does not mark them as open, so DeleteLogs (avionics) and ClearData (strain gauges) delete the segment being recorded; its writer goes on without an error, its data are in no file (`C86_refuted_recording_lost`) and its sectors are free for others.
* After DeleteLogs or ClearData a ring logger still counts the deleted segments: a ring that was full keeps exactly one segment until the next restart, each rollover deleting the segment being written (`C122_refuted_ring_keeps_one_segment`).
* C123: only landings are ever announced on CAN (avionics/mod.rs:725-757): the primary core is commented out, and the backup cores never publish PowerAscend, Coast or Descent, so consumers of Ignition, Coast and Apogee (e.g. the strain-gauge node) never hear of them. Each backup core announces its own landing: the manual-trigger core by a timer, possibly at altitude.
* C124: the camera task does not read its subscription during the minute after a landing (mod.rs:836-839), while speed events arrive at 200 Hz into a queue of ten: a rocket disarmed and armed again within that minute flies with its camera off.
* C125: `flight_core_state`, `altitude`, `backup_altitude` and `air_speed` in telemetry never change, because only the backup core runs and it publishes no altitude; the deployment commanded by the manual-trigger core is not reflected in any flight state.
* C127: the strain-gauge light says "recording" after the console has disabled the converter (SetAdcEnable does not touch the flag); `usb_connected` is set once at boot and never cleared; arming, landing and reset messages on the CAN bus reach nobody.
* The GPS and IMU recorders share their ring types: after a restart each keeps three segments instead of six, so the log reaches back 10 minutes instead of 25 (C132_refuted_shared_type).
* The storage check runs for the first time a second after the start: until then readings are recorded however full the flash is (C129_recorded_before_first_check).
* C133: the application leaves low power on any packet (avionics/mod.rs:345), the radio client only on a low-power packet: after
  "low power on" and then a soft-arm command the rocket is armed with its sensors running, but sends no telemetry
  (`C133_refuted_awake_but_silent`). A low-power command in flight blinds the backup flight core (`C133_low_power_blinds`), and a reset
  in flight ends the deployments until the rocket is armed again by radio (`C133_reset_in_flight_disarms`); neither command is
  refused while armed. Outside the model: a failed IMU or barometer reading is unwrapped (mod.rs:529-530), so it halts the flight
  computer.
* C134: the strain-gauge receiver (if its task were started, C127) never records again after the first landing, because landings are the
  only flight events sent (C123) and nothing takes a landing back (`C134_refuted_one_flight_only`). The status message is made before
  the transmitter's mutex is taken (avionics/mod.rs:292-296), so it can be as old as the wait for the bus.
* C135: TIME_BASED_NONCE_ENABLED is false (packet_builder.rs), so all packets share one nonce and key stream; even enabled, packets
  within the same tenth of a second do (`C135_refuted_nonce_reuse`).
* C137: the time message on the CAN bus carries the time of the GPS pulse and not that of its own transmission, so a board that follows it is late by the whole delay of the sender and the bus (mod.rs:305-317, mid_prio.rs:143-160).
* **C139** — readings from before the first unix time of a log file are dated by extrapolating the line through the first two unix times, about a second apart, instead of with slope one: 5 ms of jitter in the logging task dates a reading taken ten minutes before the fix 2.985 s fast.
* **C140** — the strain-gauge board writes unix times into its battery log every five minutes, but the log's first file covers one minute: it never holds a unix time and its readings cannot be dated (C140_refuted_first_file); nor can those of a recording shorter than ten minutes (C140_refuted_first_ten_minutes). As built the CAN receiver is commented out of the join and no time is ever logged (C140_refuted_as_built).
