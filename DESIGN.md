# Formal model of willow-go: design, trusted base, findings

The code under study is in `/repo` (Go). It is read as text: nothing is built
or run. The model and the proofs are in `rocq/theories` (Coq 8.16.1, standard
library only). `properties.jsonl` lists the properties, `MANIFEST.json` says
which theorems settle each one, `seeded/LOG.jsonl` records the mutation tests.

## 1. Layout

| files | content |
|---|---|
| `Base.v` | byte strings, paths, unsigned arithmetic, results (`Ok`, `Err`, `Panic`, `Fatal`, `Hang`), Go slices |
| `M_*.v` | the model, one file per Go file or package, every definition cites file and lines |
| `S_*.v` | specifications, written without using the model |
| `P_*.v` | proofs |
| `Prop_*.v` | the property theorems: statement, proof, a concrete instance, `Print Assumptions` |

## 2. Modelling conventions

* A byte is an `N`; theorems whose truth depends on a byte being at most 255
  assume `Forall (fun b => b < 256)` for the byte strings concerned. `byte(x)`
  is `x mod 256`.
* `uint64`, and the generic `T constraints.Unsigned`, are `N` with explicit
  reduction modulo `2^bits` where the Go code can overflow. `PathParams[T]`
  carries the width of `T`.
* Go outcomes: a value, a returned error (`Err`), a run-time panic (`Panic`),
  a process exit by `log.Fatal` (`Fatal`), waiting for ever (`Hang`). Slicing or indexing beyond the
  length is a panic (Go allows reslicing up to the capacity; what that changes is modelled in
  `M_Cap.v` (C70) for paths, keys and values and in `M_WireCap.v` (C85) for
  messages: it replaces some of the panics of the other models by wrong values,
  and nothing else; the cases where sharing of the backing array is visible
  are modelled separately with an explicit heap).
* `nil` is explicit (`option`) where the code distinguishes it.
* Pebble is a finite map from byte strings to byte strings whose iterator
  yields keys in byte order; single operations are atomic and durable
  (`pebble.Sync`). They succeed, except in `M_Fault.v` (C79) and `M_KvFault.v` (C87), where any of them may fail. The keys an iterator yields are byte strings, except in
  `M_Pebble.v` (C75), where the iterator may use the memory of a key again. The k-d tree library is a multiset of keys with
  `Add`, `Delete`, `Values` and `Query(filter)`; for the query the pruning
  callback given by this code base is also checked against an explicit k-d
  tree. The file system below the payload directory is a finite map from file
  names to contents.
* SHA-256 is a function parameter, assumed injective only in theorems saying so.
* Goroutines, locks and channels are state machines over explicit steps; a
  property holds for all schedules when proved for all step sequences.
* Crashes: an operation is a list of durable atomic steps; the process may stop
  after any of them and is then restarted by `InitStorage`/`InitKDTree`.

## 3. Status convention

A property false of the code keeps its full statement in view: a theorem
`..._refuted` gives a witness on the faithful model, and `..._partial` gives
the strongest positive statement proved. Both are findings listed in section 6.

## 4. Plan per property

| id | modelled | proof |
|---|---|---|
| C01 | `utils/order.go` | trichotomy against inductively defined lexicographic orders; hex rendering is order preserving |
| C02-C05 | `utils/ranges.go` 12-171, generic in the order | case analysis over the trichotomy, for any total order |
| C06 | `utils/paths.go` prefix functions | induction on paths |
| C07 | `utils/encoding.go` | arithmetic (div/mod), for all widths |
| C08 | `EncodePath`, `DecodePath`, `EncodePathLength`, `IsValidPath` | induction with arbitrary trailing bytes |
| C09-C11 | key, value and entry codecs | composition of the above |
| C12-C14 | `utils/successor.go`, value level and heap level | order-theoretic argument about all paths in between; exactly when the process ends and when the argument changes (`Prop_SuccExact.v`) |
| C15-C18 | `utils/areas.go` 1-215 | from C02-C06, C12; C15 and C16 also as an exact condition on the areas for the result to be right |
| C19-C22, C63, C64 | relative codecs | bit-exact model of flags; round trip or counter-example; exactly which slices the byte decoders accept (`Prop_Bytes.v`); exactly which named areas come back (`C22_exactly`) |
| C23 | `GrowingBytes` as producer/consumer machine; the decoders as programs of its calls | invariant over all schedules; counter-example schedules for liveness; the sequential reader of `M_Stream` and the machine simulate one another, so the decoders' models hold against the goroutine |
| C24-C30, C57, C58, C61 | the whole store: KV, tree, ref counter, payload files, lock | invariant by induction over operation lists; refinement to an abstract set of entries |
| C31 | abstract semantics from C27/C28 | order independence for pairwise distinct timestamps; refuted in general |
| C32 | micro-step version of ingestion | every prefix of the micro-steps followed by restart |
| C33 | `ListValues` over the sorted key list | induction over the reversed iteration |
| C34 | `kdnode.Query` on explicit k-d trees | pruning soundness by induction over trees |
| C35, C36 | payload directory as a finite map, staging and partial directories | invariant; refutations for `IngestPayload`, `Receive` |
| C37 | lock as part of the store state | from the invariant; refuted from corrupted databases |
| C38 | `SplitRange`, `Summarise` | case analysis; refutation for fingerprints |
| C39, C40, C47-C51 | the wgps bookkeeping structures | invariants over operation lists; refutations |
| C41-C46, C54, C60 | wgps message codecs | header bit arithmetic by exhaustive sweep over the finite byte domain lifted to all values; refutations |
| C52 | `Respond`, `DetermineRange`, `SplitRange` | coverage of the split, termination measure; refutation |
| C53 | `main.go` 315-337 | induction on strings |
| C55 | `transport/quic.go` framing | round trip of the receiver's framing; refutation for the sender |
| C65-C67 | `main.go`, the program as a machine over lines, starts and ends of input | invariant over sessions on top of the store refinement |
| C68 | `pai_finder.go` as a machine over calls | loop invariant for submission, invariant over runs; refutations |
| C69 | several stores (M_Store.v), local operations and ingestion of entries held elsewhere | each store is a run of C31; maximality and transitivity of superseding; refutation with ties |
| C70 | the decoders of `utils` and `kv_driver` on arbitrary bytes; their slices with spare capacity (M_Cap.v) | exactness by induction on the number of components; soundness of the stream decoders for any schedule; refutations |
| C71 | `message_encoder.go`, `decode_messages.go`, the tracker: whole streams of messages | induction over the messages, invariant over all runs of the loop; refutations |
| C72 | two messengers: `wgps_messenger.go` over the transport, the handlers and the store; one messenger with an arbitrary peer | invariant over all interleavings; refinement of the store; refutations |
| C73 | the functions that make a channel from a queue | invariant over all interleavings; refutations |
| C74 | the store: what each operation does to counts and files | exact per-step lemmas (P_Ledger.v), induction over histories; refutations |
| C75 | the key-value driver over pebble's iterators | memory of arrays, induction over keys with arbitrary choices; refutations |
| C76 | all stream decoders (`utils`, `wgps/decoding`) | readings of byte lists as specification, relational rules over two schedules; byte grammars of every value and message (`Prop_Grammar.v`); refutations |
| C77 | `Dist`, `DistDim` of `kdnode` | modular arithmetic; refutations |
| C78 | the encoders of `utils` and `wgps/encoding`: what is written | bit arithmetic of the headers for all widths and flags, field by field (`Prop_Written.v`); refutations |
| C79 | the store when calls of pebble and of the file system fail (`M_Fault.v`) | rules for programs with outcomes (P_Fault.v), induction over histories, from every state; refutations |
| C80 | `GetKey`, `GetNamespaceKey` with base32 and base64 (`M_Names.v`) | decoders as inverses; simulation between the store with names as on disk and that of `M_Store.v`, over all histories |
| C81 | readers of the store while Set or IngestEntry runs, seen after each of its durable writes (`M_Watch.v`) | the outcome of an operation cut anywhere (C32) gives what is there at each moment; lower bounds on reference counts, cut anywhere, for the files; counter-examples for gaps, errors, vanishing and torn payloads |
| C82 | `filesystem.go`, one system call at a time, with the directories that exist (`M_Disk.v`) | invariants kept by programs with outcomes (P_Disk.v), induction over sequences of calls; refinement to `M_Payload.v` when nothing fails; inversion of `Receive`; refutations |
| C83 | `successor.go`, the ranges of `PrefixedBy` and `AreaTo3dRange`, `EncodeEntry` on slices of arrays (`M_Mem.v`) | frame lemmas for one write, induction over components, layout of decoded keys (P_Mem.v); refinement to `M_Successor.v` and to `reshare`, `clobber` of `M_Store.v`; refutations |
| C84 | the machine of `M_Growing` with its channel closed (`M_Close.v`) | invariant over all schedules, before and after the panic; counter-example schedule |
| C85 | the message decoders on a buffer with spare capacity (`M_WireCap.v`) | equations with `M_Wire`, `M_Wire2` by cases on each wait; counter-examples for the decoders that do not wait |
| C86 | `GrowingBytes` with any number of readers, and `NextRelative` (`M_Readers.v`) | invariant over all schedules, with the number of answers a resolver can still give; simulation by `M_Growing` for one reader; counter-example schedules |
| C87 | the key-value driver when calls of pebble fail, with what is open (`M_KvFault.v`) | rules for programs with outcomes (P_KvFault.v), induction over keys, from every state; refutations |
| C88 | the relative decoders with paths as slices (`M_RelMem.v`, `M_RelMem2.v`) | one write described once (`placed`, P_RelMem.v) and composed twice for ranges, by induction for entries; refinement to `M_Rel.v`; refutations |
| C89 | `IngestPayload` over `M_Disk.v` (`M_Ingest.v`) | the theorems of C82 for each call composed in order; refinement to `M_Payload.v` when nothing fails; refutations |
| C90 | the program of C66 with failing calls (`M_ShellFault.v`) | every input leaves the stores alone, opens one or sets an entry in one; invariants of C79 carried through sessions; refinement to `M_Shell.v` when nothing fails; refutations |
| C91 | the text of `entries.json` (`M_Json.v`, `S_Json.v`) | a JSON reader written apart; digits, base64 text and escapes read back, arrays and objects by induction; joined to the invariant of C66 |
| C56 | interleaving model of `Set` | refutation by schedule, and the single-writer guarantee |
| C59 | `PathDistance` | induction; exactly which paths are at distance zero (`Prop_PathsExact.v`) |
| C62 | key helpers of `kv_driver_pebble.go` | induction |

## 5. Trusted base

* Coq's kernel (8.16.1), and coqchk. `Print Assumptions` stands after every
  property theorem; its output is `Closed under the global context` for every
  one of them. No axiom is used, from the standard library or otherwise. (The
  build as a whole contains the axioms of the standard library's `ssr` files,
  which are loaded with the prelude; no theorem depends on them.)
* The reading of the Go code recorded in the `M_*.v` files:

| model | Go code |
|---|---|
| `M_Order` | `utils/order.go` |
| `M_Encoding` | `utils/encoding.go` |
| `M_Paths`, `M_Alias` | `utils/paths.go` without streams; the memory effect of `append` in `DecodeRelativePath` |
| `M_Successor` | `utils/successor.go`, at the level of values and of the heap |
| `M_Ranges`, `M_Areas` | `utils/ranges.go` 11-207, `utils/areas.go` 73-198 |
| `M_Rel` | the relative codecs: `utils/entries.go` 117-510, `utils/ranges.go` 209-823, `utils/areas.go` 200-659 |
| `M_RelMem` | `DecodeRelativePath`, `DecodeRelPathStream`, `DecodeRange3dRelative`, `DecodeStreamRange3dRelative`, `DecodeAreaInArea`, `DecodeStreamAreaInArea`, `DecodeStreamEntryRelativeEntry` again, with the arrays their paths lie in |
| `M_RelMem2` | the same for `DecodeStreamEntryRelativeRange3d` and `DecodeStreamEntryInNamespaceArea`, and entries one after the other in one area |
| `M_Entry` | `utils/entries.go` 13-115, identifier codecs of `PinaGoladaStore/StoreSchemes.go` |
| `M_Growing` | `utils/growing_bytes.go`, goroutine and reader, line by line |
| `M_Close` | the closing of `Incoming` in `utils/growing_bytes.go`, over the machine of `M_Growing` |
| `M_Readers` | `utils/growing_bytes.go` with several readers, `NextRelative` |
| `M_KvFault` | `kv_driver_pebble.go` `Get`, `Clear`, `ListAllValues`, `GetMultipleValues`, `ListValues` and `entry_driver.go` `Query`, with failing calls of pebble and the iterators and values still open |
| `M_Stream` | the same read sequentially under arbitrary arrival schedules (related to `M_Growing` by `C23_sequential`, `C23_realised`, `C23_decoders`); the stream decoders of `utils/paths.go` |
| `M_Cap` | `DecodePath`, `DecodePathStream`, `DecodeKey`, `DecodeValues` again, on slices with spare capacity |
| `M_WireCap` | the decoders of `M_Wire` and `M_Wire2` again, on a buffer with spare capacity; the embedded decoders of entries and ranges are those of `M_Rel` |
| `M_Keys`, `M_Map` | `kv_driver/key_utilities.go`, key helpers of `kv_driver_pebble.go`; pebble as a sorted list |
| `M_Store` | `store/store.go` (Set, IngestEntry, InsertEntry, GetPayload, prefixes), `entry_driver.go`, `prefix_driver.go`, `entryDriverTypes.go`, `payload_ref_counter.go`, `PinaGoladaStore/StoreDriver.go`; crash points |
| `M_Fault` | the functions of `M_Store` again, with every call of pebble and of the file system succeeding, failing, or stopping in the middle |
| `M_Conc` | `store.go` `Set` by several callers |
| `M_Query`, `M_KdTree`, `M_Dist` | `ListValues`, `EntryDriver.Query`, `Summarise`, `SplitRange`, `GetInterestRange`; `kdnode/*.go` |
| `M_Names` | `filesystem.go` `GetKey`, `cap_finder.go` `GetNamespaceKey`; `encoding/base32` and `encoding/base64` are modelled after RFC 4648. The other files leave the rendering out; `C80_store` and `C80_capabilities` say why nothing is lost |
| `M_Watch` | `entry_driver.go` `Get` and `Query`, `store.go` `GetPayload`, with each of their readings at its own moment of a running `Set` or `IngestEntry`; `filesystem.go` `Set` while the file is written. A tree read at the very instant it changes (the rebalancing of the k-d tree) is not modelled |
| `M_Payload` | `payload_kv_driver/filesystem.go`, `store.go` `IngestPayload` |
| `M_Disk` | `payload_kv_driver/filesystem.go` again, with every system call succeeding, failing, or stopping in the middle, and the directories it makes. Assumed of Go: one `os.File.Read` asks for at most 2^30 bytes (`internal/poll`), `make` panics beyond 2^48 bytes and otherwise succeeds. A write past the largest file size is one of the failures |
| `M_Ingest` | `store.go` `IngestPayload` again, over `M_Disk`, with the lookup of the entry failing or not. The digest order is that of bytes |
| `M_Cli` | argument handling and `get` of `main.go` |
| `M_Shell` | the two loops of `main.go` (44-313), line by line, with restarts and the files named by the user |
| `M_ShellFault` | the same when calls fail: the store's own (by `M_Fault`), the directory `willow`, `Stat`, `entries.json`; closing a database always releases it, directories can be made |
| `M_Json` | the text of `entries.json`: what `json.Marshal` of Go 1.22 makes of `[]kdnode.Key` (written from knowledge of that library, whose source is not in the repository; compared with `/repo/entries.json`) |
| `M_Wire`, `M_Wire2` | `wgps/encoding/*.go`, `wgps/decoding/*.go`, `wgps/channels` |
| `M_Messages` | `wgps/encoding/message_encoder.go`, `wgps/decoding/decode_messages.go`, `wgps/reconciliation/reconcile_msg_tracker.go` (commented out in `/repo`, but both ends call it), `DefaultRange3d`, `DefaultEntry` |
| `M_Book` | `handlestore`, `guaranteed_queue.go`, `cap_finder.go`, `aoi_intersection_finder.go`, `reconciler_map.go` |
| `M_Data` | `wgps/data/*.go`, `syncutils` |
| `M_Sync` | `reconciliation/reconciler.go`, handlers `wgps_messenger.go` 2767-3037 |
| `M_Pai` | `wgps/pai/pai_finder.go` 100-448, 552-588, `wgpstypes/pai_types.go`, for any group; ranging over a handle store, which does not compile, visits the bound handles in an order given with the call |
| `M_Transport` | `wgps/transport/quic.go` |
| `M_Messenger` | `wgps_messenger.go`: the listeners and callbacks started by `NewWgpsMessenger` (783-843), `Initiate`, `Close`, `HandleDataInitiator`, the gob codecs as parameters (`EncodeSummary` and `DecodeSummary` as constants: neither field of their struct is exported); two messengers connected to each other |
| `M_Feed` | `pai_finder.go` 450-550, `aoi_intersection_finder.go` 143-169, `guaranteed_queue.go` 53-69, `reconciler.go` 212-231: channels made from queues |
| `M_Pebble` | `kv_driver_pebble.go` 95-142, 163-245, `StoreDriver.go` 69-88 with the arrays that hold the keys of an iterator |
| `M_Mem` | `utils/successor.go`, the path range of `PrefixedBy`, `AreaTo3dRange` for one subspace, `EncodeEntry` with the shipped schemes, on slices with capacities; how far `append` grows is a parameter. The slice of components is a list (its callers copy it) |

* Not modelled: the rest of `wgps_messenger.go` (the queues and finders that are constructed but
  not used by code that is not commented out; an application that calls the handlers or the
  transport of a messenger directly), two callbacks at the same time, the code that is commented out in
  `/repo` (`store/fingerprinting.go`, `announcer.go`),
  the test servers, TLS and connection set-up (I/O errors of the program are in `M_ShellFault`,
  those of the store's own functions in `M_Fault`, those of the key-value driver in `M_KvFault`, those of the payload driver in `M_Disk`; there a failed
  write has no effect, except that a file may be written in part), running out of memory, torn
  reads of racing goroutines. The store's tree is a list of nodes in `M_Store`, searched
  completely; this is what the k-d tree gives as long as it is ordered (C34). Once a key in it has been rewritten in
  place the real tree can also miss entries (`C34_rewritten_refuted`); the positive theorems about the store assume paths
  below all limits, for which no key is rewritten. Entries given to `Set` and `IngestEntry` are
  taken to have their path and subspace in arrays of their own; entries that were loaded from
  the database share one array (`n_shared`).
* The behaviour assumed of external code: pebble is a map with ordered
  iteration and durable single writes, and refuses to open a database that the
  process has already open (`M_Shell`); the k-d tree library visits nodes as in
  `M_KdTree`; the file system is a map; SHA-256 is a function, assumed
  injective on the payloads occurring where a theorem says `universe`; QUIC
  streams deliver bytes in order in arbitrary fragments; Go channels and
  mutexes as in the language specification.

## 6. Findings

Each item is proved on the model by the theorem named; witnesses are computed.

### 6.1 Values, paths, ranges, areas (`utils`)

* `SuccessorPath` and `PrefixSuccessor` end the process by `log.Fatal` at the
  length limits instead of moving on to the next path
  (`C12_ends_process_refuted`, `C13_ends_process_refuted`); they return paths
  over the limits for `MaxPathLength` or counts at the end of the number range
  (`C12_result_over_limit_refuted`, `C13_result_over_limit_refuted`);
  `PrefixSuccessor` overwrites the caller's path (`C12_changes_argument_refuted`).
  `C12_ends_exactly`, `C12_changes_exactly` and `C13_ends_exactly` say for
  exactly which paths: those of the greatest total length whose last component
  could still grow, and those whose last component other than the greatest
  one has the greatest length.
* `AreaTo3dRange` starts the path range at the wrong place and compares by
  `DeepEqual` values that are never equal, and inherits the `log.Fatal`
  (`C15_wrong_start_refuted`, `C15_ends_process_refuted`); `C15_exactly`: for
  every other area of a valid time range the range is right.
* `IntersectArea` forgets `Any_subspace`: positions are lost and gained
  (`C16_drops_positions_refuted`, `C16_adds_positions_refuted`); `C16_exactly`:
  the result is right exactly when the first area names a subspace, or the
  second does and both carry the same subspace value.
* `DecodeRelativePath` appends into the reference's backing array and so
  changes the reference; `EncodePathRelativeLength` is not the length; paths
  without a common first component end the process
  (`C19_reference_changed_refuted`, `C19_length_refuted`,
  `C19_no_common_prefix_refuted`). The announced length is too small for every
  pair of paths (`C19_length_never`; the difference in `C19_length_exactly`).
* `IsValidPath` accepts no path when a limit is 2^63 or more (`C08_large_limits_refuted`).
* `PathDistance` is 0 for different paths (`C59_zero_distance_refuted`), exactly
  for those that differ in zero bytes at the end of components and in components
  of zero bytes at the end (`C59_zero_exactly`).
* A reader that waits for bytes when the stream ends waits for ever
  (`C84_told_refuted`); one that asks afterwards panics with the lock held, and
  nothing can be pruned from then on (`C84_more_panics`, `C84_after_the_panic`).
* Several readers of one `GrowingBytes` (none in `/repo`, but lines 82-85 are for
  them): a call can return fewer bytes than it asked for while the call the bytes
  were for never returns (`C86_short_refuted`); a second call for the same length
  waits with the lock, so that no byte is taken in any more
  (`C86_both_refuted`, `C86_wedge`), and one of the two never returns
  (`C86_one_of_two`). `NextRelative` counts from what the goroutine has taken in
  when it is called, so that `TestGrowingBytes_Relative` hangs on some schedules
  (`C86_relative_refuted`).
* `GrowingBytes` has four races: bytes that arrive unnoticed, a request that is
  erased, the goroutine blocked on its own channel, a reader waiting for ever
  with the lock held (`C23_unnoticed_refuted`, `C23_erased_refuted`,
  `C23_jam_refuted`, `C23_wedge_refuted`). `DecodeDataSendPayload` prunes twice,
  and the second pruning takes what has arrived of the next message meanwhile
  (`C23_pruned_twice_refuted`).
* `DecodeStreamEntry` panics when the entry arrives slowly, waits for ever with
  the shipped schemes, and a path ending in an empty component is never decoded
  from a stream (`C11_roundtrip_refuted`, `C11_path_stream_refuted`); the shipped digest scheme panics (`C11_shipped_digest_panics`).

* No decoder rejects malformed input: `DecodePath`, `DecodeKey` and
  `DecodeValues` panic on everything that does not begin with an encoding
  (`C70_path`, `C70_key`, `C70_values`), the stream decoders panic or wait for
  ever (`C70_path_stream`, `C70_empty`). Paths beyond the limits are returned
  (`C70_limits_refuted`), and `DecodeIntMax64` accepts several encodings of a
  number (`C70_int64_refuted`). Within the capacity of its input `DecodePath`
  completes a truncated path with whatever follows in memory
  (`C70_path_memory_refuted`). In `DecodePathStream` this loses data: a
  component that has not arrived in full is returned with zero bytes in place
  of the missing ones, and these are then read as what follows
  (`C70_stream_memory_refuted`).
* `TryAppendZeroByte` appends in place: it writes a zero byte into whatever
  follows the component in its array, and `PrefixSuccessor` raises a byte of the
  caller's path (`C83_successor_path`, `C83_successor_prefix`). After a key has
  been decoded the subspace follows the last component, so a range made from
  such an area starts at another subspace (`C83_area_refuted`; nothing in the
  repository makes one), and pruning changes the subspace of a loaded node
  (`C83_loaded`). `EncodeEntry` appends to the slice of the namespace: with spare capacity there,
  encoding a second entry changes the first encoding (`C83_encode_refuted`).

### 6.2 Relative codecs (`utils`)

* Entry relative to entry and to range: no common first component is fatal or
  an error, slow arrival panics (`C20_no_common_prefix_refuted`,
  `C20_slow_arrival_refuted`, `C63_open_range_refuted`,
  `C63_closed_range_refuted`).
* 3d range relative to 3d range: no bytes decode to a closed time range, no
  stream decodes to a range that contains anything, the full range is fatal,
  adjacent subspace ranges are rejected (`C21_closed_times_refuted`,
  `C21_stream_refuted`, `C21_full_refuted`, `C21_adjacent_subspaces_refuted`).
* Area in area: an outer area without path ends the process; any-subspace is
  never decoded; starts near the outer end and ends in open outer areas come
  out wrong; the subspace is read from the wrong place; the length function is
  wrong; streamed start differences are cut to a byte (`C22_*_refuted`).
* All of them decode a path by appending to the path of the reference, and so
  write into its array where it has room. Decoding a range relative to the
  start of another (`1/9`), the paths from `1/2` to `1/3` come out as those from
  `1/3` to `1/3`, which contain nothing (`C88_range_refuted`; whatever is sent,
  two such paths come out as prefixes of one another, `C88_range_clash`). Entries
  sent one after the other all end up with the path of the last
  (`C88_entries_refuted`, `C88_entries_clash`). So do entries sent one after the other in
  one area (`C88_area_entries_refuted`, `C88_area_clash`). The area is the one bound to the
  handle: an entry of the peer that is not in it gives our own area of interest another path
  (`C88_area_moves_refuted`; entries in it do not, `C88_area_entries`), and an entry in a range
  moves a bound of the range (`C88_range_moves_refuted`). The positions in byte slices are
  computed from the overwritten reference (`C88_position`, `C88_bytes_refuted`,
  `C88_area_refuted`). Components behind the end of the reference are taken when
  its array has them (`C19_behind_reference_refuted`).
* Entry in area: the encoder writes decimal text, which nothing decodes, and
  the widths of the time difference and the length instead of their values
  (`C64_roundtrip_refuted`, `C64_forgets_refuted`; exactly: `C64_written`).

### 6.3 Store

* A path component of exactly `MaxComponentLength` bytes displaces the index
  node: several live entries at one place, reads that miss, older entries
  accepted over newer ones, and later an error return with the lock held after
  which every call blocks (`C24_one_live_entry_refuted`,
  `C26_index_agrees_refuted`, `C27_decision_refuted`, `C28_effect_refuted`,
  `C29_read_your_writes_refuted`, `C37_lock_free_refuted`).
* The empty path panics with the lock held; a path of total length
  `MaxPathLength` ends the process after the entry is durable
  (`C61_no_crash_refuted`).
* After a restart, pruning an entry whose path has the maximal number of
  components overwrites the first byte of its subspace in the index node
  (`append` behind the last component); the call returns an error with the lock
  held and the next one blocks (`C61_each_limit_refuted`, which also shows that
  every condition of the partial theorems is needed).
* What survives all of this: an entry is never taken away without a newer one at
  its place or above it, up to and including the limits and across process
  ends (`C58_monotone`).
* Equal timestamps: a descendant survives an equally old entry above it, and
  replicas do not converge (`C25_no_newer_above_refuted`,
  `C31_converge_refuted`).
* The payload file is named by the decoded digest, the count is kept by the
  digest text: an upper-case digest takes the payload of a live entry with it
  (`C30_payloads_refuted`, `C35_foreign_digest_refuted`). A digest that is not hexadecimal
  names the payload directory itself (`C80_shared_refuted`).
* Crashes: between insertion and pruning the pruned entries stay for good;
  between insertion and counting a later overwrite erases a live payload; a
  payload equal to the subspace name is lost (its file is the authorisation
  token's) (`C32_offer_again_refuted`, `C32_count_refuted`,
  `C32_payload_refuted`).
* Readers are not kept apart from writers: during a replacement the place reads as empty, or Get and
  Query give an error (`C81_gap_refuted`, `C81_error_refuted`); a payload equal to the subspace name
  is gone for a while (`C81_vanished_refuted`), and any payload reads as a part of itself while the
  same bytes are offered again, also by a caller without authorisation (`C81_torn`,
  `C81_torn_refuted`). Entries that the operation does not touch are read throughout
  (`C81_untouched`, `C81_query`), their payloads too unless they are the subspace name
  (`C81_payload_partial`).
* The payload driver turns every failure while receiving into a panic (`C82_panics`) and leaves the
  temporary file (`C82_leftover_refuted`); a failing `Stat` is a nil dereference
  (`C82_reading_refuted`); the file is read back by one `Read`, so that the digest is wrong after a
  short one, and always beyond 2^30 bytes (`C82_digest_refuted`, `C82_large_refuted`); the error of
  copying a partial payload is overwritten by that of removing its source: what was received, and
  what was there before, are lost while success is printed (`C82_lost_refuted`).
* Concurrent `Set` calls lose payloads of live entries in two ways
  (`C56_overwrite_refuted`, `C56_erase_refuted`).
* `ListValues`: open ends are ignored, any-subspace areas list the empty
  subspace, the closed end is included, the size limit is exclusive, a count limit of
  2^63 or more lists nothing (`C33_large_count_refuted`)
  (`C33_open_end_refuted`, `C33_any_subspace_refuted`,
  `C33_closed_end_refuted`, `C33_size_refuted`). What is listed for every area: `C33_every_area`.
* `EntryDriver.Query` returns empty entries in front of the live ones
  (`C34_driver_refuted`). A key that is rewritten in place leaves the k-d tree
  out of order, and a query then misses other entries that are in the tree and in
  its range (`C34_rewritten_refuted`).
* Distances of index keys wrap: keys 2^32 microseconds apart are at distance 0,
  keys an hour apart at a negative one; the distance in the dimensions of subspace
  and path is 1 even for equal keys (`C77_*_refuted`). Nothing calls them yet.
* Fingerprints are always empty, `Summarise` ends the process after a restart,
  `SplitRange` makes no progress on equal timestamps
  (`C38_fingerprint_refuted`, `C38_summarise_refuted`,
  `C38_split_progress_refuted`). `C38_summarise_exactly`: a range is summarised exactly
  when none of its index keys carries a fingerprint.
* Payload driver: reading at the end is an error, `Receive` at an offset
  replaces the first part by zeros, `IngestPayload` never stores anything
  (`C35_offset_refuted`, `C36_two_parts_refuted`, `C36_ingest_refuted`). The code behind its
  tests would report success for a part whose copy failed, and an error for a payload that
  it stored (`C89_part_refuted`, `C89_error_refuted`; exactly: `C89_received`).
* Payloads are left behind: by a refused `Set`, and by an overwrite with the same
  digest, which leaves the count one too high for good (`C74_refusal_refuted`,
  `C74_leak_refuted`). A pruned payload that was the subspace name takes the
  stored token of a live entry with it (`C74_tokens_refuted`). Otherwise counts
  and files are exact (`C74_exact_counts_partial`, `C74_exact_files_partial`).
* An overwrite deletes the old entry before the new one is durable: a crash in
  between leaves neither (`C32_both_lost_refuted`).
* Failing disk calls: errors are dropped or returned with the lock held. `Set` succeeds
  without its payload or with part of it, reading gives other bytes than the file has
  (`C79_payload_refuted`, `C79_read_refuted`); a failed delete leaves two versions at one
  place, and writing there ends the process from then on (`C79_replace_refuted`); a failed
  insertion has deleted the old version and blocks the store (`C79_unchanged_refuted`); `Set`
  reports an error although the entry is recorded (`C79_reported_refuted`); a count that was
  not written lets a live payload be erased (`C79_count_refuted`); a failed listing at the
  start gives an empty index (`C79_start_refuted`; exactly: `C79_start_exactly`). What holds in spite of all that:
  `C79_recorded`, `C79_opens`, `C79_success`. Listings and queries are never wrong or
  shortened (`C87_list`, `C87_all`, `C87_query`), but an iterator that fails ends the process
  (`C87_iterator`).
* `ListValues` does not give back the value at which it stops for the size, so that every such
  listing leaves one more value of pebble open; `Clear` leaves its iterator open when a delete
  fails (`C87_given_back_refuted`; exactly: `C87_list_given_back`, `C87_clear`).
* Keys of an iterator are kept after the iterator moves on, which pebble does not
  allow. If its buffer is used again, a store that is opened again does not find
  live entries and accepts older ones beside them, and the listing of an area has
  the wrong paths (`C75_reopen_refuted`, `C75_list_refuted`, for keys of one
  length always: `C75_reused`, `C75_reopen_reused`). If every move allocates, all
  is well (`C75_reopen_partial`, `C75_list_partial`); the rest of the model
  assumes this.
* Seen while modelling, not proved: pebble values are used after their
  closer is closed; paths over the limits are never validated.

* Entries that tie at comparable places keep replicas apart: two stores that
  know the same entries hold different ones, and sending everything again
  changes nothing (`C69_ties_refuted`).

### 6.4 Command line

* Hours wrap modulo 2^64 and 00:00 is refused; components containing `/` print
  ambiguously; the empty path cannot be printed; `get` on an absent entry
  prints an empty line or panics (`C53_time_refuted`, `C53_path_back_refuted`,
  `C65_absent_refuted`). `get` of a path at the limits of the parameters ends
  the process, whether or not there is an entry: its successor is computed for
  the query and does not exist (`C65_limit`).
* The program, for any session (`C66_*`): a namespace holds what was typed into
  it and not superseded, `set`, `list`, `get` and `entries.json` show that.
* A session is not always what was typed less what is superseded
  (`C66_same_time_refuted`, `C66_limits_refuted`).  The second of two `set` lines
  with one time at one place is refused and its contents are not kept.  At a
  component of fifty bytes an entry stays after a newer line for the same place,
  so `list` prints both, with a last letter that nobody typed (`C66_instance_list`).  A component
  more or a byte more than the limits, or a path of fifty bytes in several components, ends the
  program (`C66_instance_limits`).
* When calls fail (`C90_*`): a `set` line can print an error though the entry is there
  (`C90_error_refuted`), or lose the entry it was to replace and leave the store locked,
  so that the next `set` never returns (`C90_lost_refuted`, `C90_stuck`); it can print success
  though the file was not stored, and `get` then ends the program (`C90_done_refuted`).
  `get` prints an empty line for an entry whose record or file cannot be read
  (`C90_get_refuted`).  After a start at which a read failed `list` is empty,
  `entries.json` is overwritten by an empty list, and an older entry is accepted
  (`C90_list_refuted`).
* `entries.json` loses a fingerprint that is not UTF-8 (`C91_instance_lost`); the shipped
  digests are hexadecimal text, which is not affected.  A file cut short by a failed write is
  not valid JSON (`C91_cut`), so the damage of `C90_accepted` can be noticed.
* A `set` line with a wrong time or an unreadable file leaves the namespace with
  its databases open; the process can never enter it again, trying ends it
  (`C67_left_open`, `C67_wrong_time_refuted`). A namespace made by the running
  process is not listed and not entered by `enter` (`C67_new_unknown_refuted`).
  Without such lines the program dies exactly on `new` without a name and on
  `get` in a namespace in which nothing was ever set (`C67_dies_partial`).
* Seen while modelling, not proved: `new ` with an empty name puts the
  databases directly into `willow`, where the next start lists them as three
  namespaces; names with `/` may lie inside another namespace.

### 6.5 Sync protocol

* Channels made from queues miss what is queued once their goroutine has started
  and repeat everything at the next call (`C73_late_refuted`,
  `C73_twice_refuted`).
* Messages: guarantees arrive as absolutions, the control channel has the
  reconciliation channel's code (`C41_control_refuted`,
  `C54_control_channel_refuted`); intersection messages carry widths instead of
  handles, commitment reveals have no header (`C43_pai_refuted`,
  `C43_commitment_refuted`); token handles from 256 and offsets are lost,
  payload bytes are cut twice (`C42_send_entry_handle_refuted`,
  `C42_data_refuted`); area-of-interest limits never arrive
  (`C44_limits_refuted`, `C44_area_refuted`); ranges, covers and token handles
  arrive wrong (`C45_range_refuted`, `C45_covers_refuted`,
  `C45_reconciliation_refuted`); data messages are dispatched as fingerprints,
  setup messages never (`C46_dispatch_refuted`); every byte: `C46_every_byte`.
  What a receiver is told for every control message and every requested handle is in
  `C41_exactly` and `C43_exactly`; which header bytes keep a channel, a handle type or a
  width is in `C54_exactly` and `C60_exactly`.
* Written: the header of a relative range announces another width for the end time than
  is written, and starts of open subspace ranges, offsets in a payload and handles above
  255 in intersection messages are written alike (`C78_range_refuted`,
  `C78_open_refuted`, `C78_offset_refuted`, `C78_handle_refuted`); a fingerprint's two
  handle widths are announced wrong, limits are written without being announced, and the
  message for the token handle 63 is read as another one (`C78_fingerprint_refuted`,
  `C78_limits_refuted`, `C78_token_refuted`). What is written otherwise is stated bit by
  bit (`Prop_Written.v`).
* Arrival: the handles of the intersection messages are cut out of what happens to have
  arrived, so the same bytes decode or panic (`C76_request_refuted`). Where the array behind
  the buffer has room, as it has from the first byte on, there is no panic but zeros in
  place of what has not arrived: a request names another handle, a payload is zeros, a
  payload request has offset 0 and another entry, an announcement another count
  (`C85_request_refuted`, `C85_reply_refuted`, `C85_payload_refuted`,
  `C85_payload_request_refuted`, `C85_announce_refuted`). Behind a data payload
  bytes that have already arrived are lost (`C76_send_payload_refuted`). The grammars of
  `C76_spelt_reconciliation` show more: behind a static token handle below 63 a byte is
  swallowed, and a cover from 252 is waited for with one byte too few.
* Streams: whatever arrives, the receiving loop never puts out an announcement,
  entry, payload, payload request, setup message, commitment or metadata
  (`C71_silent`); an announcement panics (`C71_announcement_panics`); a message
  without a decoder makes it put out nil for ever and hides all behind it
  (`C71_spin`, `C71_lost_refuted`). A new encoder ends the process at its first
  fingerprint, announcement or entry (`C71_nothing_reconciled`).
* Bookkeeping: handles repeat after 2^64 bindings (`C39_fresh_refuted`); the
  queue sends without guarantees, its account wraps, Push panics while the
  receiver sleeps, a plea raises the account (`C40_*_refuted`); the capability
  finder panics on the first capability of a namespace, and handle 0 is also
  "none" (`C47_*_refuted`); intersections are announced twice or stay behind
  (`C48_rebind_refuted`, `C48_stale_refuted`); a second reconciler displaces
  the first (`C49_lost_refuted`).
* Private area intersection: submitting binds the fragments as it should
  (`C68_submit`), but the fragments of the peer are bound among one's own, so
  no intersection is ever announced, also for equal capabilities, and no
  subspace capability is ever requested or sent (`C68_silent`,
  `C68_common_refuted`); replies carry a handle of the replier
  (`C68_reply_handle_refuted`); a zero group member and an unbound handle are
  taken for a known authorisation, unrequested subspace capabilities are
  announced (`C68_forged_refuted`, `C68_unasked_refuted`); fragments without a
  subspace have no outer area but panic (`C68_outer_refuted`).
* Data: a request at the end of a payload blocks all later ones, and every
  message is sent again at each call (`C50_stops_refuted`,
  `C50_once_refuted`); the payload ingester never ingests and may answer a
  stale entry (`C51_never_refuted`, `C51_stale_refuted`).
* Reconciliation: nothing is ever announced, a reopened store ends the process,
  equal timestamps never terminate whatever the summary, the acceptor panics,
  the initiator sends the same bytes whatever it holds, disjoint ranges hang (`C52_*_refuted`).
* Transport: `Send` writes no lengths, so nothing is received as sent; the
  initiator's channel number arrives as a message; lengths from 2^63 panic;
  early use panics; two listeners share one stream (`C55_*_refuted`).
* Seen while modelling: `wgps` does not compile as committed (generic
  parameters that cannot be inferred, parts commented out); the setup messages
  leave the read capability and area of interest out of the bytes sent
  (`message_encoder.go` 131-151); the test scheme's stream decoder never prunes.
* Two messengers never exchange an entry: after the connection is made each waits for the other,
  and the only bytes ever written are the numbers of the streams, which the listeners take for a
  message (`C72_isolated`, `C72_silent`). With a peer that does send: which of two goroutines
  reading one stream gets a message, or which part of it, decides whether it is stored
  (`C72_lost_refuted`, `C72_torn_refuted`); eight bytes or one message with a range end the process
  (`C72_crash_refuted`, `C72_range_crash_refuted`); an entry is stored with its subspace name for
  authorisation, so a peer can write for anyone (`C72_forged_refuted`); namespace, digest, length
  and a zero timestamp of the entry are replaced (`C72_altered_refuted`).

## 7. Mutation tests

`seeded/LOG.jsonl` has one line per edit of the model made in a scratch copy.
After an edit the files that the property theorems named under `properties`
depend on are built again; every proof that fails is admitted and the build goes
on; `theorems_failed` lists the theorems and instances in the rebuilt files that
failed or depend on an admitted lemma. A failing proof script does not by itself
show that the statement became false; a theorem that still proves shows that it
does not see the edit, and those were tightened (`theorems_tightened`).
