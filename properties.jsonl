{"id": "C01", "title": "Comparators are total orders", "statement": "OrderBytes, OrderSubspace, OrderTimestamp and OrderPath each return only Less/Equal/Greater and are total orders: Equal exactly for identical values, swapping the arguments flips the sign, Less is transitive. OrderBytes is the lexicographic order with a proper prefix first, OrderPath is the same lifted to components, and OrderSubspace (which compares hex renderings) agrees with OrderBytes.", "quantifier": "all byte strings, all paths, all uint64 timestamps; all pairs and triples of them", "why_tests_cant": "The input space is unbounded; a test samples finitely many inputs and cannot exclude a counterexample elsewhere.", "anchors": ["utils/order.go:OrderBytes", "utils/order.go:OrderTimestamp", "utils/order.go:OrderPath", "utils/order.go:OrderSubspace"]}
{"id": "C02", "title": "Range membership is interval membership", "statement": "IsIncludedRange(order, r, v) is true exactly when start <= v and (r is open-ended or v < end); IsValidRange is true exactly when the range is open-ended or start < end; hence an invalid range includes no value, and a valid one includes its start.", "quantifier": "all ranges and values of each of the three dimension types", "why_tests_cant": "The input space is unbounded; a test samples finitely many inputs and cannot exclude a counterexample elsewhere.", "anchors": ["utils/ranges.go:IsIncludedRange", "utils/ranges.go:IsValidRange"]}
{"id": "C03", "title": "Range intersection is set intersection", "statement": "IntersectRange(order,a,b) reports an intersection exactly when some value could be included in both valid ranges, and the returned range includes a value exactly when both a and b include it.", "quantifier": "all pairs of ranges (closed or open) and all values, for any total order", "why_tests_cant": "The input space is unbounded; a test samples finitely many inputs and cannot exclude a counterexample elsewhere.", "anchors": ["utils/ranges.go:IntersectRange", "utils/ranges.go:OrderRangePair"]}
{"id": "C04", "title": "Range containment is sound and complete", "statement": "RangeIsIncluded(order, parent, child) returns true only if every value in child is in parent, and (for valid child ranges) whenever that is the case for the end points.", "quantifier": "all pairs of ranges and all values", "why_tests_cant": "The input space is unbounded; a test samples finitely many inputs and cannot exclude a counterexample elsewhere.", "anchors": ["utils/ranges.go:RangeIsIncluded"]}
{"id": "C05", "title": "3d ranges are products of their dimensions", "statement": "IsIncluded3d holds exactly when the position's subspace, path and time each lie in the corresponding range; IntersectRange3d returns a range whose members are exactly the common members, and reports failure only if there is no common member.", "quantifier": "all 3d ranges and positions", "why_tests_cant": "The input space is unbounded; a test samples finitely many inputs and cannot exclude a counterexample elsewhere.", "anchors": ["utils/ranges.go:IsIncluded3d", "utils/ranges.go:IntersectRange3d", "utils/ranges.go:IsValidRange3d"]}
{"id": "C06", "title": "Prefix functions agree with the prefix relation", "statement": "IsPathPrefixed(p,q) is true exactly when q = p followed by some components; PrefixesOf(q) lists every prefix of q, each exactly once, shortest first; CommonPrefix returns the longest common prefix (an error exactly when it is empty).", "quantifier": "all pairs of paths", "why_tests_cant": "The input space is unbounded; a test samples finitely many inputs and cannot exclude a counterexample elsewhere.", "anchors": ["utils/paths.go:IsPathPrefixed", "utils/paths.go:PrefixesOf", "utils/paths.go:CommonPrefix"]}
{"id": "C07", "title": "Integer codecs round-trip at the announced width", "statement": "For every x not above the maximum, EncodeIntMax32/64 produce exactly the number of bytes GetWidthMax32/64Int announces and the decoders return x; distinct integers get distinct encodings, and for the fixed-width encodings (EncodeIntMax32 for one maximum, BigIntToBytes) byte order equals numeric order.", "quantifier": "all maxima and all x not above the maximum (uint64, all widths)", "why_tests_cant": "The input space is unbounded; a test samples finitely many inputs and cannot exclude a counterexample elsewhere.", "anchors": ["utils/encoding.go:EncodeIntMax32", "utils/encoding.go:DecodeIntMax32", "utils/encoding.go:EncodeIntMax64", "utils/encoding.go:DecodeIntMax64", "utils/encoding.go:GetWidthMax32Int", "utils/encoding.go:GetWidthMax64Int", "utils/encoding.go:BigIntToBytes"]}
{"id": "C08", "title": "Absolute path codec round-trips and is self-delimiting", "statement": "For a path within the limits, DecodePath applied to EncodePath(path) followed by any other bytes returns the path and the number of bytes of its encoding, which is what EncodePathLength announces; encodings of different paths are different and never prefixes of one another. IsValidPath accepts exactly the paths within the limits.", "quantifier": "all parameter triples, all paths within them, all trailing bytes", "why_tests_cant": "The input space is unbounded; a test samples finitely many inputs and cannot exclude a counterexample elsewhere.", "anchors": ["utils/paths.go:EncodePath", "utils/paths.go:DecodePath", "utils/paths.go:EncodePathLength", "utils/paths.go:IsValidPath"]}
{"id": "C09", "title": "Database keys round-trip, are unique and sort newest last", "statement": "DecodeKey(EncodeKey(position)) returns the position for every position whose path is within the limits; distinct positions get distinct keys; in byte order keys with a smaller timestamp come first.", "quantifier": "all positions (uint64 time, arbitrary subspace bytes, path within limits)", "why_tests_cant": "The input space is unbounded; a test samples finitely many inputs and cannot exclude a counterexample elsewhere.", "anchors": ["pkg/data_model/kv_driver/key_utilities.go:EncodeKey", "pkg/data_model/kv_driver/key_utilities.go:DecodeKey"]}
{"id": "C10", "title": "Database values round-trip", "statement": "DecodeValues(EncodeValues(v)) = v for every payload length and any two digest strings, so no field bleeds into another; on truncated input DecodeValues panics instead of returning a wrong value.", "quantifier": "all uint64 lengths and all digest strings", "why_tests_cant": "The input space is unbounded; a test samples finitely many inputs and cannot exclude a counterexample elsewhere.", "anchors": ["pkg/data_model/kv_driver/key_utilities.go:EncodeValues", "pkg/data_model/kv_driver/key_utilities.go:DecodeValues"]}
{"id": "C11", "title": "Entry codec round-trips", "statement": "DecodeEntry(EncodeEntry(e)) = e for every entry whose path is within the limits, with fixed-width identifier schemes.", "quantifier": "all entries", "why_tests_cant": "The input space is unbounded; a test samples finitely many inputs and cannot exclude a counterexample elsewhere.", "anchors": ["utils/entries.go:EncodeEntry", "utils/entries.go:DecodeEntry"]}
{"id": "C12", "title": "SuccessorPrefix bounds exactly the extensions of a path", "statement": "When SuccessorPrefix(p) returns a path q, every path below q and not below p has p as a prefix and every extension of p within the limits is below q; when it returns nothing, no path within the limits is greater than every extension of p. It never terminates the process and never changes its argument.", "quantifier": "all parameters, all paths within the limits", "why_tests_cant": "The input space is unbounded; a test samples finitely many inputs and cannot exclude a counterexample elsewhere. The claim quantifies over all paths lying between two paths.", "anchors": ["utils/successor.go:SuccessorPrefix", "utils/successor.go:PrefixSuccessor", "utils/successor.go:TryAppendZeroByte", "utils/successor.go:PathAppend"]}
{"id": "C13", "title": "SuccessorPath is the least greater path", "statement": "SuccessorPath(p) is a path within the limits greater than p with no path within the limits strictly in between, or nothing when p is the greatest path; it never terminates the process and never changes its argument.", "quantifier": "all parameters, all paths within the limits", "why_tests_cant": "The input space is unbounded; a test samples finitely many inputs and cannot exclude a counterexample elsewhere. The claim quantifies over all paths lying between two paths.", "anchors": ["utils/successor.go:SuccessorPath", "utils/successor.go:SuccessorBytesFixedWidth", "utils/successor.go:PathAppend"]}
{"id": "C14", "title": "Byte-string successors", "statement": "SuccessorSubspaceId(s) is the least byte string greater than s; SuccessorBytesFixedWidth(b) is the least string of the same length greater than b (numerically b+1), or nothing exactly when all bytes are 255. Neither modifies its argument.", "quantifier": "all byte strings", "why_tests_cant": "The input space is unbounded; a test samples finitely many inputs and cannot exclude a counterexample elsewhere.", "anchors": ["utils/successor.go:SuccessorSubspaceId", "utils/successor.go:SuccessorBytesFixedWidth"]}
{"id": "C15", "title": "AreaTo3dRange selects exactly the area", "statement": "A position whose path is within the limits is included in AreaTo3dRange(area) exactly when it is included in the area.", "quantifier": "all areas, all positions, all path parameters", "why_tests_cant": "The input space is unbounded; a test samples finitely many inputs and cannot exclude a counterexample elsewhere.", "anchors": ["utils/areas.go:AreaTo3dRange", "utils/areas.go:IsIncludedArea"]}
{"id": "C16", "title": "Area intersection is set intersection", "statement": "IntersectArea(a,b) returns nil exactly when the areas share no position, otherwise an area including exactly the positions included in both.", "quantifier": "all pairs of areas, all positions", "why_tests_cant": "The input space is unbounded; a test samples finitely many inputs and cannot exclude a counterexample elsewhere.", "anchors": ["utils/areas.go:IntersectArea"]}
{"id": "C17", "title": "Area containment is sound", "statement": "AreaIsIncluded(inner, outer) implies that every position included in inner is included in outer; and it is true whenever the components of inner lie inside those of outer.", "quantifier": "all pairs of areas, all positions", "why_tests_cant": "The input space is unbounded; a test samples finitely many inputs and cannot exclude a counterexample elsewhere.", "anchors": ["utils/areas.go:AreaIsIncluded"]}
{"id": "C18", "title": "Area membership", "statement": "IsIncludedArea(area, position) is true exactly when the subspace matches (or the area is for any subspace), the time lies in the time range and the area's path is a prefix of the position's path; FullArea includes every position; SubspaceArea(s) includes exactly the positions with subspace s.", "quantifier": "all areas and positions", "why_tests_cant": "The input space is unbounded; a test samples finitely many inputs and cannot exclude a counterexample elsewhere.", "anchors": ["utils/areas.go:IsIncludedArea", "utils/areas.go:FullArea", "utils/areas.go:SubspaceArea", "utils/areas.go:IsSubspaceIncludedInArea"]}
{"id": "C19", "title": "Relative path codec", "statement": "For paths within limits with a non-empty common prefix, DecodeRelativePath(ref, EncodeRelativePath(p, ref)) = p; the announced length equals the encoded length; decoding changes neither the reference path nor any path sharing memory with it.", "quantifier": "all pairs of paths, all parameters, all memory layouts of the reference slice", "why_tests_cant": "The input space is unbounded; a test samples finitely many inputs and cannot exclude a counterexample elsewhere. Aliasing depends on slice capacities which tests rarely vary.", "anchors": ["utils/paths.go:EncodeRelativePath", "utils/paths.go:DecodeRelativePath", "utils/paths.go:EncodePathRelativeLength"]}
{"id": "C20", "title": "Entry-relative-to-entry codec", "statement": "Decoding the encoding of an entry relative to a reference entry yields the entry, for every pair with timestamps on either side, equal or different namespace and subspace.", "quantifier": "all pairs of entries", "why_tests_cant": "The input space is unbounded; a test samples finitely many inputs and cannot exclude a counterexample elsewhere.", "anchors": ["utils/entries.go:EncodeEntryRelativeEntry", "utils/entries.go:DecodeStreamEntryRelativeEntry"]}
{"id": "C21", "title": "3d-range-relative codec", "statement": "Decoding the encoding of a 3d range relative to a reference 3d range yields the range.", "quantifier": "all pairs of 3d ranges", "why_tests_cant": "The input space is unbounded; a test samples finitely many inputs and cannot exclude a counterexample elsewhere.", "anchors": ["utils/ranges.go:EncodeRange3dRelative", "utils/ranges.go:DecodeRange3dRelative", "utils/ranges.go:DecodeStreamRange3dRelative"]}
{"id": "C22", "title": "Area-in-area codec", "statement": "For an inner area contained in an outer one, DecodeAreaInArea(EncodeAreaInArea(inner, outer), outer) = inner and EncodeAreaInAreaLength is the length of the encoding.", "quantifier": "all nested pairs of areas", "why_tests_cant": "The input space is unbounded; a test samples finitely many inputs and cannot exclude a counterexample elsewhere.", "anchors": ["utils/areas.go:EncodeAreaInArea", "utils/areas.go:DecodeAreaInArea", "utils/areas.go:EncodeAreaInAreaLength"]}
{"id": "C23", "title": "GrowingBytes delivers the stream in order and never loses a wake-up", "statement": "Whatever the interleaving of arriving chunks with NextAbsolute and Prune calls, NextAbsolute(n) returns the first n unpruned bytes of the concatenated stream once they have arrived, and a reader waiting for n bytes is eventually woken when n bytes have arrived.", "quantifier": "all chunkings of the stream, all schedules of producer and consumer", "why_tests_cant": "The number of interleavings is unbounded and scheduling is not controllable from a unit test.", "anchors": ["utils/growing_bytes.go:NewGrowingBytes", "utils/growing_bytes.go:NextAbsolute", "utils/growing_bytes.go:Prune"]}
{"id": "C24", "title": "At most one live entry per subspace and path", "statement": "After any history of store operations there is at most one live entry for a given subspace and path, so Get never finds several (which would terminate the process).", "quantifier": "all finite histories of Set/IngestEntry/restart", "why_tests_cant": "The claim is about every finite history of operations; tests exercise a few short histories.", "anchors": ["pkg/data_model/store/store.go:IngestEntry", "pkg/data_model/datamodeltypes/entryDriverTypes.go:Get"]}
{"id": "C25", "title": "Prefix pruning invariant", "statement": "After any history no live entry has, in its subspace, a live entry at a proper (non-empty) prefix of its path with an equal or newer timestamp.", "quantifier": "all finite histories", "why_tests_cant": "The claim is about every finite history of operations; tests exercise a few short histories.", "anchors": ["pkg/data_model/store/store.go:IngestEntry", "pkg/data_model/store/store.go:InsertEntry", "pkg/data_model/store/store.go:PrunableEntries", "pkg/data_model/kv_driver/prefix_driver.go:DriverPrefixesOf", "pkg/data_model/kv_driver/prefix_driver.go:PrefixedBy"]}
{"id": "C26", "title": "The in-memory index and the database agree; restart loses nothing", "statement": "After any history the positions in the k-d tree are exactly the positions decoded from the entry database; reopening the store yields the same live entries.", "quantifier": "all finite histories, restart at any point between operations", "why_tests_cant": "The claim is about every finite history of operations; tests exercise a few short histories.", "anchors": ["pkg/data_model/entry_driver/entry_driver.go:Insert", "pkg/data_model/entry_driver/entry_driver.go:Delete", "PinaGoladaStore/StoreDriver.go:InitKDTree"]}
{"id": "C27", "title": "Ingestion decision is exact and refusals have no effect", "statement": "IngestEntry accepts an entry exactly when its namespace is the store's, the token authorises it, no live proper-prefix entry of the same subspace is at least as new, and no live entry at the same subspace and path is at least as new; when it refuses, the live entries, the reference counts and the payloads are unchanged and the lock is free.", "quantifier": "all reachable store states, all entries and tokens", "why_tests_cant": "The claim is about every finite history of operations; tests exercise a few short histories.", "anchors": ["pkg/data_model/store/store.go:IngestEntry"]}
{"id": "C28", "title": "Accepted ingestion changes exactly what it should", "statement": "After an accepted IngestEntry(e) the live entries are e, plus the previous live entries except the one at e's own subspace and path and those of the same subspace strictly below e's path that are strictly older; the returned list is exactly the latter, each once.", "quantifier": "all reachable store states, all accepted entries", "why_tests_cant": "The claim is about every finite history of operations; tests exercise a few short histories.", "anchors": ["pkg/data_model/store/store.go:IngestEntry", "pkg/data_model/store/store.go:InsertEntry", "pkg/data_model/store/store.go:PrunableEntries"]}
{"id": "C29", "title": "Read your writes", "statement": "After Set succeeds, Get at that subspace and path returns an entry with the timestamp, digest and length of the payload just written, and GetPayload at the position returns exactly the payload bytes.", "quantifier": "all reachable store states, all inputs", "why_tests_cant": "The claim is about every finite history of operations; tests exercise a few short histories.", "anchors": ["pkg/data_model/store/store.go:Set", "pkg/data_model/store/store.go:GetPayload", "pkg/data_model/entry_driver/entry_driver.go:Get"]}
{"id": "C30", "title": "Live payloads are never lost", "statement": "After any history the reference count of a digest is at least the number of live entries carrying it, so the payload of every live entry written through Set is still stored with the right bytes; no payload is removed while a live entry refers to it.", "quantifier": "all finite histories of Set/IngestEntry/restart", "why_tests_cant": "The claim is about every finite history of operations; tests exercise a few short histories.", "anchors": ["pkg/data_model/store/store.go:Set", "pkg/data_model/store/store.go:IngestEntry", "pkg/data_model/payload_kv_driver/payload_ref_counter.go:Increment", "pkg/data_model/payload_kv_driver/payload_ref_counter.go:Decrement"]}
{"id": "C31", "title": "Replicas converge", "statement": "Two stores that have been offered the same set of authorised entries hold the same live entries, in whatever order the entries were ingested.", "quantifier": "all finite sets of entries and all pairs of ingestion orders", "why_tests_cant": "Orders grow factorially and entry sets are unbounded.", "anchors": ["pkg/data_model/store/store.go:IngestEntry"]}
{"id": "C32", "title": "Crash safety of ingestion", "statement": "If the process dies between any two durable steps of IngestEntry and the store is reopened, then at most one entry per subspace and path is live, the index agrees with the database, no live payload is missing, and re-ingesting the same entry reaches the state of the uninterrupted run.", "quantifier": "all reachable states, all entries, all crash points", "why_tests_cant": "Crash points inside an operation cannot be hit by unit tests; states are unbounded.", "anchors": ["pkg/data_model/store/store.go:IngestEntry", "pkg/data_model/store/store.go:InsertEntry", "PinaGoladaStore/StoreDriver.go:InitKDTree"]}
{"id": "C33", "title": "ListWithAOI returns exactly the newest entries of the area", "statement": "ListWithAOI(aoi) returns the live entries inside the area, newest first, truncated to the longest prefix respecting the count limit and the size limit.", "quantifier": "all database contents, all areas of interest", "why_tests_cant": "The input space is unbounded; a test samples finitely many inputs and cannot exclude a counterexample elsewhere.", "anchors": ["pkg/data_model/kv_driver/kv_driver_pebble.go:ListValues", "pkg/data_model/store/store.go:ListWithAOI"]}
{"id": "C34", "title": "Range query is exact", "statement": "Querying the index with a 3d range returns exactly the live positions inside it, whatever the shape of the k-d tree; EntryDriver.Query returns one entry per such position.", "quantifier": "all tree shapes, all ranges", "why_tests_cant": "The input space is unbounded; a test samples finitely many inputs and cannot exclude a counterexample elsewhere.", "anchors": ["pkg/data_model/kdnode/wrapper.go:Query", "pkg/data_model/kdnode/willowkdtreenode.go:Order", "pkg/data_model/entry_driver/entry_driver.go:Query"]}
{"id": "C35", "title": "Payload driver is a content store", "statement": "After Set(payload), Get on the returned digest yields exactly those bytes until Erase on the same digest; operations on one digest never affect another; BytesWithOffset returns the bytes from the offset on.", "quantifier": "all histories of Set/Get/Erase, all payloads, any collision-free digest scheme", "why_tests_cant": "The claim is about every finite history of operations; tests exercise a few short histories.", "anchors": ["pkg/data_model/payload_kv_driver/filesystem.go:Set", "pkg/data_model/payload_kv_driver/filesystem.go:Get", "pkg/data_model/payload_kv_driver/filesystem.go:Erase", "pkg/data_model/payload_kv_driver/filesystem.go:GetPayload"]}
{"id": "C36", "title": "Payload ingestion", "statement": "IngestPayload for a live entry whose payload is absent, given the complete right bytes, stores them and reports success; wrong bytes are rejected and leave nothing behind; a payload delivered in two parts is assembled.", "quantifier": "all store states, all payloads, all split points", "why_tests_cant": "The input space is unbounded; a test samples finitely many inputs and cannot exclude a counterexample elsewhere.", "anchors": ["pkg/data_model/store/store.go:IngestPayload", "pkg/data_model/payload_kv_driver/filesystem.go:Receive"]}
{"id": "C37", "title": "The ingestion lock is always released", "statement": "Whenever IngestEntry returns, by success or by error, the ingestion lock is free, so a later call cannot block forever.", "quantifier": "all store states reachable by operations, external database contents, and crashes; all inputs", "why_tests_cant": "The claim is about every finite history of operations; tests exercise a few short histories.", "anchors": ["pkg/data_model/store/store.go:IngestEntry"]}
{"id": "C38", "title": "SplitRange partitions and Summarise counts", "statement": "For a range containing at least one entry SplitRange returns two ranges such that every position in the original is in exactly one of them and nothing else is; Summarise reports the number of live entries inside; its fingerprint distinguishes different entry sets.", "quantifier": "all tree contents, all ranges", "why_tests_cant": "The input space is unbounded; a test samples finitely many inputs and cannot exclude a counterexample elsewhere.", "anchors": ["pkg/data_model/datamodeltypes/entryDriverTypes.go:SplitRange", "pkg/data_model/datamodeltypes/entryDriverTypes.go:Summarise"]}
{"id": "C39", "title": "Handle store life cycle", "statement": "Bind always returns a handle never returned before; Get returns what was bound as long as the handle is not freed; a handle marked for freeing is removed exactly when no message refers to it any more; operations on one handle never change another.", "quantifier": "all finite histories of Bind/Get/MarkForFreeing/IncrementHandleReference/DecrementHandleReference/Update", "why_tests_cant": "The claim is about every finite history of operations; tests exercise a few short histories.", "anchors": ["pkg/wgps/handlestore/handle_store.go"]}
{"id": "C40", "title": "Guaranteed queue respects guarantees", "statement": "Messages leave the queue in the order they were pushed, each exactly once, and never more bytes leave than guarantees were added; Plead and Absolve account guarantees without wrap-around.", "quantifier": "all histories of Push/AddGuarantees/Plead", "why_tests_cant": "The claim is about every finite history of operations; tests exercise a few short histories.", "anchors": ["pkg/wgps/guaranteed_queue.go"]}
{"id": "C41", "title": "Control message codec", "statement": "Decoding the encoding of each control message (issue guarantee, absolve, plead, announce dropping, apologise, free) returns that message and consumes exactly its bytes.", "quantifier": "all control messages with all amounts, handles and channels, any following bytes", "why_tests_cant": "The input space is unbounded; a test samples finitely many inputs and cannot exclude a counterexample elsewhere.", "anchors": ["pkg/wgps/encoding/control.go", "pkg/wgps/decoding/control.go"]}
{"id": "C42", "title": "Data message codec", "statement": "Decoding the encoding of each data message (send entry, send payload, set metadata, bind payload request, reply payload) returns that message and consumes exactly its bytes.", "quantifier": "all data messages, any following bytes", "why_tests_cant": "The input space is unbounded; a test samples finitely many inputs and cannot exclude a counterexample elsewhere.", "anchors": ["pkg/wgps/encoding/data.go", "pkg/wgps/decoding/data.go"]}
{"id": "C43", "title": "Private area intersection message codec", "statement": "Decoding the encoding of each PAI message (bind fragment, reply fragment, request capability, reply capability) returns that message.", "quantifier": "all PAI messages, any following bytes", "why_tests_cant": "The input space is unbounded; a test samples finitely many inputs and cannot exclude a counterexample elsewhere.", "anchors": ["pkg/wgps/encoding/pai.go", "pkg/wgps/decoding/pai.go"]}
{"id": "C44", "title": "Setup message codec", "statement": "Decoding the encoding of each setup message (bind area of interest, bind static token, bind read capability) returns that message.", "quantifier": "all setup messages, any following bytes", "why_tests_cant": "The input space is unbounded; a test samples finitely many inputs and cannot exclude a counterexample elsewhere.", "anchors": ["pkg/wgps/encoding/setup.go", "pkg/wgps/decoding/setup.go"]}
{"id": "C45", "title": "Reconciliation message codec", "statement": "Decoding the encoding of each reconciliation message (fingerprint, announce entries, entry, payload, terminate) returns that message.", "quantifier": "all reconciliation messages, any following bytes", "why_tests_cant": "The input space is unbounded; a test samples finitely many inputs and cannot exclude a counterexample elsewhere.", "anchors": ["pkg/wgps/encoding/reconciliation.go", "pkg/wgps/decoding/reconciliation.go"]}
{"id": "C46", "title": "Message dispatch", "statement": "The first byte of every encoded message selects the decoder of that message kind and no other.", "quantifier": "all message kinds and all their header bytes", "why_tests_cant": "The input space is unbounded; a test samples finitely many inputs and cannot exclude a counterexample elsewhere.", "anchors": ["pkg/wgps/decoding/decode_messages.go", "pkg/wgps/encoding/message_encoder.go"]}
{"id": "C47", "title": "Capability finder", "statement": "FindCapHandle(entry) returns a handle of a previously added capability whose granted area and namespace include the entry whenever one was added.", "quantifier": "all sets of capabilities and entries", "why_tests_cant": "The input space is unbounded; a test samples finitely many inputs and cannot exclude a counterexample elsewhere.", "anchors": ["pkg/wgps/cap_finder.go"]}
{"id": "C48", "title": "Area-of-interest intersections are complete", "statement": "For every pair of a handle bound by us and one bound by them whose namespaces are equal and whose areas intersect, exactly one intersection with the area of intersection is announced, whatever the binding order.", "quantifier": "all finite sequences of handle bindings", "why_tests_cant": "The claim is about every finite history of operations; tests exercise a few short histories.", "anchors": ["pkg/wgps/reconciliation/aoi_intersection_finder.go"]}
{"id": "C49", "title": "Reconciler map", "statement": "GetReconciler(ours, theirs) returns the reconciler most recently added for that pair, and adding one pair never affects another.", "quantifier": "all sequences of AddReconciler", "why_tests_cant": "The claim is about every finite history of operations; tests exercise a few short histories.", "anchors": ["pkg/wgps/reconciliation/reconciler_map.go"]}
{"id": "C50", "title": "Data sender chunking", "statement": "The messages emitted for a queued payload request concatenate to the payload from the requested offset, in order, and requests are served once and in order.", "quantifier": "all payloads, offsets and request sequences", "why_tests_cant": "The input space is unbounded; a test samples finitely many inputs and cannot exclude a counterexample elsewhere.", "anchors": ["pkg/wgps/data/data_sender.go"]}
{"id": "C51", "title": "Payload ingester", "statement": "Feeding the received chunks of a payload to the ingester in order results in the store receiving exactly their concatenation once the transmission is terminated.", "quantifier": "all chunkings and interleavings of targets", "why_tests_cant": "The claim is about every finite history of operations; tests exercise a few short histories.", "anchors": ["pkg/wgps/data/payload_ingester.go"]}
{"id": "C52", "title": "Reconciliation covers every entry", "statement": "Starting from a range, following Respond on both sides, every entry that one side has in the range and the other lacks is eventually announced, and the exchange terminates.", "quantifier": "all pairs of store contents, all ranges", "why_tests_cant": "The input space is unbounded; a test samples finitely many inputs and cannot exclude a counterexample elsewhere.", "anchors": ["pkg/wgps/reconciliation/reconciler.go:Respond", "pkg/wgps/wgps_messenger.go:Respond"]}
{"id": "C53", "title": "Command-line parsing", "statement": "The time argument HH:MM is converted to (60*HH+MM)*60*10^6 microseconds or reported as invalid (0); splitting a path on '/' and printing it back gives the same text.", "quantifier": "all argument strings", "why_tests_cant": "The input space is unbounded; a test samples finitely many inputs and cannot exclude a counterexample elsewhere.", "anchors": ["main.go:parseTimeStampToMicroSeconds", "main.go:makePath", "PinaGoladaStore/StoreDriver.go:ConvertToByteSlices"]}
{"id": "C54", "title": "Logical channel and handle type codes", "statement": "Encoding a logical channel or handle type into its three bits and decoding it back gives the same channel or handle type, for all of them, and distinct ones have distinct codes.", "quantifier": "all logical channels and handle types with all remaining header bits", "why_tests_cant": "The input space is unbounded; a test samples finitely many inputs and cannot exclude a counterexample elsewhere.", "anchors": ["pkg/wgps/encoding/utils.go", "pkg/wgps/decoding/util.go", "pkg/wgps/channels/channels.go"]}
{"id": "C55", "title": "Transport framing", "statement": "A sequence of byte strings sent on a transport channel is received as the same sequence.", "quantifier": "all message sequences, all fragmentations", "why_tests_cant": "The input space is unbounded; a test samples finitely many inputs and cannot exclude a counterexample elsewhere.", "anchors": ["pkg/wgps/transport/quic.go"]}
{"id": "C56", "title": "Concurrent Set calls", "statement": "For any interleaving of concurrent Set calls the payload of every live entry remains stored.", "quantifier": "all interleavings of any number of Set calls at the granularity of payload write, ingestion, and final count check", "why_tests_cant": "Schedules are not controllable from a unit test.", "anchors": ["pkg/data_model/store/store.go:Set", "pkg/data_model/store/store.go:IngestEntry"]}
{"id": "C57", "title": "Authorisation is enforced", "statement": "With the shipped scheme, an entry becomes live only if it was offered with a token equal to its subspace; an unauthorised Set or ingest leaves live entries unchanged; live entries all carry the store's namespace.", "quantifier": "all histories", "why_tests_cant": "The claim is about every finite history of operations; tests exercise a few short histories.", "anchors": ["PinaGoladaStore/StoreSchemes.go:TestAuthorisationScheme", "pkg/data_model/store/store.go:Set"]}
{"id": "C58", "title": "Timestamps at one position only grow", "statement": "For any subspace and path, once an entry is live at that position with timestamp t, then at every later point either an entry with timestamp at least t is live there, or a live or formerly live entry at a proper prefix with a timestamp greater than t superseded it.", "quantifier": "all histories", "why_tests_cant": "The claim is about every finite history of operations; tests exercise a few short histories.", "anchors": ["pkg/data_model/store/store.go:IngestEntry"]}
{"id": "C59", "title": "Path distance", "statement": "PathDistance(a,b) is symmetric, never negative, and zero exactly when the two paths are equal.", "quantifier": "all pairs of paths", "why_tests_cant": "The input space is unbounded; a test samples finitely many inputs and cannot exclude a counterexample elsewhere.", "anchors": ["utils/paths.go:PathDistance"]}
{"id": "C60", "title": "Compact width header helpers", "statement": "CompactWidthOr followed by CompactWidthFromEndOfByte recovers the width, for every width 1,2,4,8 and every header byte with clear low bits, and leaves the other bits unchanged.", "quantifier": "all header bytes and widths", "why_tests_cant": "The input space is unbounded; a test samples finitely many inputs and cannot exclude a counterexample elsewhere.", "anchors": ["pkg/wgps/encoding/utils.go", "pkg/wgps/decoding/util.go"]}
{"id": "C61", "title": "Operations never crash the process", "statement": "No Set, Get, GetPayload or IngestEntry with a path within the configured limits terminates or panics the process.", "quantifier": "all reachable states, all paths within the limits", "why_tests_cant": "The claim is about every finite history of operations; tests exercise a few short histories.", "anchors": ["pkg/data_model/store/store.go:Set", "utils/successor.go:PathAppend", "pkg/data_model/kv_driver/prefix_driver.go:DriverPrefixesOf"]}
{"id": "C62", "title": "Database key helpers", "statement": "IsFirstPrefixOfSecond is the prefix relation on byte strings, CompareKeys is a total order (by length, then lexicographic) and GetMultipleValues returns the value of every key in order or an error if one is absent.", "quantifier": "all byte strings and databases", "why_tests_cant": "The input space is unbounded; a test samples finitely many inputs and cannot exclude a counterexample elsewhere.", "anchors": ["pkg/data_model/kv_driver/kv_driver_pebble.go:IsFirstPrefixOfSecond", "pkg/data_model/kv_driver/kv_driver_pebble.go:CompareKeys", "pkg/data_model/kv_driver/kv_driver_pebble.go:GetMultipleValues"]}
{"id": "C63", "title": "Entry-relative-to-range codec", "statement": "Decoding the encoding of an entry relative to a 3d range containing it yields the entry.", "quantifier": "all ranges and entries inside them", "why_tests_cant": "The input space is unbounded; a test samples finitely many inputs and cannot exclude a counterexample elsewhere.", "anchors": ["utils/entries.go:EncodeEntryRelativeRange3d", "utils/entries.go:DecodeStreamEntryRelativeRange3d"]}
{"id": "C64", "title": "Entry-in-namespace-area codec", "statement": "Decoding the encoding of an entry relative to an area containing it and a namespace yields the entry.", "quantifier": "all areas and entries inside them", "why_tests_cant": "The input space is unbounded; a test samples finitely many inputs and cannot exclude a counterexample elsewhere.", "anchors": ["utils/areas.go:EncodeEntryInNamespaceArea", "utils/areas.go:DecodeStreamEntryInNamespaceArea"]}
{"id": "C65", "title": "Command-line get after set", "statement": "After a successful set of a payload at a path in the command-line program, get of the same path text prints exactly that payload; get of a path without a live entry reports that there is none.", "quantifier": "all reachable stores, all path texts and payloads", "why_tests_cant": "The claim is about every finite history of operations; tests exercise a few short histories.", "anchors": ["main.go", "pkg/data_model/store/store.go:GetPayload"]}
{"id": "C66", "title": "Interactive sessions", "statement": "After any lines, ends of input and restarts, a namespace of the command-line program holds exactly the entries set by lines typed inside it that no other such entry supersedes; a set line prints exactly the entries it prunes; list prints one row per held entry in order of subspaces; get prints the contents of the file set at that place; entries.json lists exactly the held entries; no other line changes what any namespace holds.", "quantifier": "all sequences of lines, ends of input and starts, with any file system contents and clock", "why_tests_cant": "The claim is about every finite history of operations; tests exercise a few short histories.", "anchors": ["main.go:NameSpaceInteraction", "main.go:main", "main.go:writeEntriesToFile"]}
{"id": "C67", "title": "Life cycle of namespaces in the program", "statement": "Typing in one namespace leaves all others as they are; the program knows exactly the namespaces that exist, enter takes the user into any of them, and the program ends only when asked to.", "quantifier": "all sequences of lines, ends of input and starts", "why_tests_cant": "The claim is about every finite history of operations; tests exercise a few short histories.", "anchors": ["main.go:main", "main.go:NameSpaceInteraction", "PinaGoladaStore/StoreDriver.go:InitStorage"]}
{"id": "C68", "title": "Private area intersection", "statement": "Submitting an authorisation binds one handle for each prefix of its granted path and sends the group member of each in the order of the handles; a peer's fragment is answered with that group member multiplied once more under the peer's handle; an intersection is announced exactly for fragments both peers submitted; the outer area of a handle is the set of positions its fragment stands for.", "quantifier": "all groups, capabilities and sequences of calls and received messages", "why_tests_cant": "The claim is about every finite history of operations; tests exercise a few short histories.", "anchors": ["pkg/wgps/pai/pai_finder.go:SubmitAuthorisation", "pkg/wgps/pai/pai_finder.go:ReceivedBind", "pkg/wgps/pai/pai_finder.go:CheckForIntersections", "pkg/wgps/pai/pai_finder.go:GetHandleOuterArea"]}
{"id": "C69", "title": "Exchanging held entries converges", "statement": "Stores that perform local operations and send each other entries they hold, in any order, directly or through other stores, each hold exactly the entries known to them that no other known entry supersedes; stores that know the same entries hold the same entries; an entry held can always be sent, and sending it again changes nothing.", "quantifier": "all numbers of stores, all local operations, all orders of sending", "why_tests_cant": "The claim is about every finite history of operations; tests exercise a few short histories.", "anchors": ["pkg/data_model/store/store.go:IngestEntry", "pkg/data_model/store/store.go:Set", "pkg/data_model/store/store.go:InsertEntry"]}
{"id": "C70", "title": "Decoding bytes nobody encoded", "statement": "On arbitrary bytes every decoder either returns the value whose encoding the bytes begin with or reports an error; it never panics or waits for ever, never returns a value violating the path limits, and never depends on bytes outside its input or on the pieces in which the input arrives.", "quantifier": "all byte strings, all arrival schedules, all contents of the memory behind the input", "why_tests_cant": "The input space is unbounded; a test samples finitely many inputs and cannot exclude a counterexample elsewhere.", "anchors": ["utils/encoding.go:DecodeIntMax32", "utils/encoding.go:DecodeIntMax64", "utils/paths.go:DecodePath", "utils/paths.go:DecodePathStream", "utils/paths.go:DecodeRelPathStream", "pkg/data_model/kv_driver/key_utilities.go:DecodeKey", "pkg/data_model/kv_driver/key_utilities.go:DecodeValues", "utils/entries.go:DecodeEntry"]}
{"id": "C71", "title": "Streams of messages", "statement": "The encoder turns each message into one frame on the logical channel of its kind, and the decoding loop, fed the bytes of a channel in any pieces, puts out exactly the messages encoded on that channel, in order, and then waits; no message stops the loop or hides those behind it.", "quantifier": "all sequences of messages, all encoding schemes, all arrival schedules", "why_tests_cant": "The claim is about every finite history of operations; tests exercise a few short histories.", "anchors": ["pkg/wgps/encoding/message_encoder.go:Encode", "pkg/wgps/decoding/decode_messages.go:DecodeMessages", "pkg/wgps/reconciliation/reconcile_msg_tracker.go:NewReconcileMsgTracker", "pkg/wgps/channels/channels.go"]}
{"id": "C72", "title": "Synchronisation sessions", "statement": "After two connected messengers have exchanged what they have to say, each store holds the entries of the other that it accepts, with their payloads, exactly as their authors wrote and authorised them; what is stored does not depend on how bytes arrive or goroutines are scheduled; nothing a peer sends ends the process.", "quantifier": "all pairs of stores, all peers (messengers and others), all interleavings of arrivals, reads, handlers and local calls", "why_tests_cant": "The claim is about every finite history of operations; tests exercise a few short histories.", "anchors": ["pkg/wgps/wgps_messenger.go:NewWgpsMessenger", "pkg/wgps/wgps_messenger.go:HandleDataInitiator", "pkg/wgps/wgps_messenger.go:HandleMsgReconciliationAcceptor", "pkg/wgps/wgps_messenger.go:HandleMsgReconciliationInitiator", "pkg/wgps/wgps_messenger.go:DecodeSummary", "pkg/wgps/transport/quic.go:Recv"]}
{"id": "C73", "title": "Channels made from queues", "statement": "A channel obtained from a finder, a queue or the reconciler delivers every element queued for it exactly once, in order, including those queued after the channel was made, and is closed when its source is.", "quantifier": "all interleavings of queueing, calls, goroutine steps, receptions and cancellations; all element types", "why_tests_cant": "The claim is about every finite history of operations; tests exercise a few short histories.", "anchors": ["pkg/wgps/pai/pai_finder.go:FragmentBinds", "pkg/wgps/pai/pai_finder.go:FragmentReplies", "pkg/wgps/pai/pai_finder.go:Intersections", "pkg/wgps/pai/pai_finder.go:SubspaceCapRequests", "pkg/wgps/reconciliation/aoi_intersection_finder.go:Intersections", "pkg/wgps/guaranteed_queue.go:FetchOutgoingBytes", "pkg/wgps/reconciliation/reconciler.go:announcements"]}
{"id": "C74", "title": "Counts and payload files are an exact account", "statement": "An accepted entry raises the count of its digest by one and lowers it by one for each entry it removes; a payload is erased exactly when the last count goes; a refused operation leaves counts and files as they are. So the counts are the numbers of live entries with each digest, and the payload directory holds the payloads and the authorisation tokens of the live entries and nothing else.", "quantifier": "all histories of sets, ingestions and restarts", "why_tests_cant": "The claim is about every finite history of operations; tests exercise a few short histories.", "anchors": ["pkg/data_model/store/store.go:Set", "pkg/data_model/store/store.go:IngestEntry", "pkg/data_model/store/store.go:InsertEntry", "pkg/data_model/payload_kv_driver/payload_ref_counter.go", "pkg/data_model/payload_kv_driver/filesystem.go:Erase"]}
{"id": "C75", "title": "Keys read from database iterators", "statement": "Clearing the database deletes every key; listing it returns every key with its value; opening a store again rebuilds the index from every stored key, and listing an area returns the entries stored, whatever memory the iterator uses for its keys.", "quantifier": "all databases and histories, all choices of the iterator between its old buffer and a new one, all growth policies of append", "why_tests_cant": "The claim is about every finite history of operations; tests exercise a few short histories.", "anchors": ["pkg/data_model/kv_driver/kv_driver_pebble.go:Clear", "pkg/data_model/kv_driver/kv_driver_pebble.go:ListAllValues", "pkg/data_model/kv_driver/kv_driver_pebble.go:ListValues", "PinaGoladaStore/StoreDriver.go:InitKDTree"]}
{"id": "C76", "title": "Decoding does not depend on how bytes arrive", "statement": "Every message decoder of the sync protocol, given any bytes arriving in any pieces, returns the value those bytes spell and leaves exactly the bytes behind it; it waits if and only if bytes are missing; it neither ends the process nor takes bytes that are not its own, and fails where the bytes say so, not depending on the moment they arrive.", "quantifier": "all byte sequences, all schedules of arrival, all codecs of the caller that themselves do not depend on the schedule", "why_tests_cant": "The input space is unbounded; a test samples finitely many inputs and cannot exclude a counterexample elsewhere.", "anchors": ["pkg/wgps/decoding/control.go:DecodeControlFree", "pkg/wgps/decoding/data.go:DecodeDataSendPayload", "pkg/wgps/decoding/pai.go:DecodePaiRequestSubspaceCapability", "pkg/wgps/decoding/reconciliation.go:DecodeReconciliationSendPayload", "utils/ranges.go:DecodeStreamRange3dRelative", "utils/entries.go:DecodeStreamEntryRelativeEntry", "utils/areas.go:DecodeStreamAreaInArea"]}
{"id": "C77", "title": "Distances between keys of the index", "statement": "The distance of two keys is symmetric, never negative, zero exactly if the keys have the same position, grows with the time between them, and is never below the distance in one dimension.", "quantifier": "all pairs of keys, all timestamps", "why_tests_cant": "The input space is unbounded; a test samples finitely many inputs and cannot exclude a counterexample elsewhere.", "anchors": ["pkg/data_model/kdnode/willowkdtreenode.go:DistDim", "pkg/data_model/kdnode/willowkdtreenode.go:Dist"]}
{"id": "C78", "title": "What is put on the wire", "statement": "Every relative encoding and every message of the sync protocol is written as header bytes in which each bit has one meaning, followed by exactly the fields those bits announce, in order, each number in the fewest of 1, 2, 4 or 8 bytes and nothing else.", "quantifier": "all values, all reference values, all codecs of the caller", "why_tests_cant": "The input space is unbounded; a test samples finitely many inputs and cannot exclude a counterexample elsewhere.", "anchors": ["utils/entries.go:EncodeEntryRelativeEntry", "utils/entries.go:EncodeEntryRelativeRange3d", "utils/ranges.go:EncodeRange3dRelative", "utils/areas.go:EncodeAreaInArea", "pkg/wgps/encoding/data.go:EncodeDataSendEntry", "pkg/wgps/encoding/setup.go:EncodeSetupBindAreaOfInterest", "pkg/wgps/encoding/reconciliation.go:EncodeReconciliationAnnounceEntries", "pkg/wgps/encoding/pai.go:EncodePaiBindFragment", "pkg/wgps/encoding/control.go:EncodeControlIssueGuarantee"]}
{"id": "C79", "title": "Disk calls that fail", "statement": "Whatever calls of pebble and of the file system fail, in operations and in starts: the database holds only entries offered with an authorising token and opens again; an operation that reports success has recorded its entry with its payload, one version per place; an operation that reports an error has changed nothing, and the store can be used further.", "quantifier": "all histories of operations and starts, all sequences of outcomes of the calls (success, failure, a write or read cut short after any number of bytes)", "why_tests_cant": "The claim is about every finite history of operations; tests exercise a few short histories.", "anchors": ["pkg/data_model/store/store.go:IngestEntry", "pkg/data_model/store/store.go:InsertEntry", "pkg/data_model/store/store.go:Set", "pkg/data_model/payload_kv_driver/filesystem.go:Set", "pkg/data_model/payload_kv_driver/payload_ref_counter.go:Increment", "pkg/data_model/kv_driver/kv_driver_pebble.go:ListAllValues", "PinaGoladaStore/StoreDriver.go:InitKDTree"]}
{"id": "C80", "title": "Names of files and keys", "statement": "The name of a payload file is the base32 form of the encoded digest: whatever the digest, it stays inside the payload directory and is none of its subdirectories; different digests have different names; a store that uses these names does exactly what one that uses the digests themselves would. The base64 keys of the capability map likewise.", "quantifier": "all byte strings as digests and namespaces, all histories of store operations, all capability maps", "why_tests_cant": "The input space is unbounded; a test samples finitely many inputs and cannot exclude a counterexample elsewhere.", "anchors": ["pkg/data_model/payload_kv_driver/filesystem.go:GetKey", "pkg/wgps/cap_finder.go:GetNamespaceKey", "PinaGoladaStore/StoreSchemes.go:TestPayloadScheme"]}
{"id": "C81", "title": "Reading while writing", "statement": "Whatever the moment at which Get, Query and GetPayload look at a store in which Set or IngestEntry is running: an entry that the operation does not replace or prune is read as before, with its payload; what is read was live before or is the entry being written; a refused operation changes nothing that is read; a reader never panics or hangs. A place occupied before and after is never read as empty, a payload never as part of itself.", "quantifier": "all histories with crashes, all operations, all moments at which a reader looks", "why_tests_cant": "The claim is about every finite history of operations; tests exercise a few short histories.", "anchors": ["pkg/data_model/entry_driver/entry_driver.go:Get", "pkg/data_model/entry_driver/entry_driver.go:Query", "pkg/data_model/store/store.go:GetPayload", "pkg/data_model/store/store.go:IngestEntry", "pkg/data_model/payload_kv_driver/filesystem.go:Set"]}
{"id": "C82", "title": "The payload driver call by call", "statement": "Whatever calls of the operating system fail or stop in the middle, from the first run on, and whichever directories are missing: once calls succeed again the driver behaves as in a directory that was always there; receiving changes nothing but its own temporary file; when it returns, the whole part is there and the digest and length are those of the file; committing a complete payload is all or nothing, and is reported as such; every file holds the beginning of a payload that was stored, or of a part that was received, under its own name; reading from an offset gives the rest of the file.", "quantifier": "all sequences of calls of the driver, all sequences of outcomes of the system calls (success, failure, cut short after any number of bytes), all digest schemes", "why_tests_cant": "The claim is about every finite history of operations; tests exercise a few short histories.", "anchors": ["pkg/data_model/payload_kv_driver/filesystem.go:Receive", "pkg/data_model/payload_kv_driver/filesystem.go:copyFile", "pkg/data_model/payload_kv_driver/filesystem.go:EnsureDir", "pkg/data_model/payload_kv_driver/filesystem.go:Set", "pkg/data_model/payload_kv_driver/filesystem.go:Erase", "pkg/data_model/payload_kv_driver/filesystem.go:GetPayload"]}
{"id": "C83", "title": "Successors and encodings in memory", "statement": "Whatever lies in memory: SuccessorPath and SuccessorPrefix write at most one byte, right behind a component (zero) or inside one (raised by one, SuccessorPrefix only), and return what they return on byte strings; the range PrefixedBy queries, and the subspace of a node loaded from a key, read as the model of the store says; AreaTo3dRange and EncodeEntry return what they return on byte strings and change nothing else when the subspace, or the namespace, has nothing behind it that is written.", "quantifier": "all memories, all paths of slices in it, all capacities, all growth policies of append, all keys that decode", "why_tests_cant": "The claim is about every finite history of operations; tests exercise a few short histories.", "anchors": ["utils/successor.go:SuccessorPath", "utils/successor.go:SuccessorPrefix", "utils/successor.go:TryAppendZeroByte", "utils/successor.go:PrefixSuccessor", "utils/areas.go:AreaTo3dRange", "utils/entries.go:EncodeEntry", "pkg/data_model/kv_driver/prefix_driver.go:PrefixedBy"]}
{"id": "C84", "title": "The end of a stream", "statement": "When the channel of bytes is closed, nothing is lost and no answer is spoilt: every byte sent has been pruned or can be read at once, in order; a call for more than is there is never answered. One made after the end panics and keeps the lock, after which nothing can be pruned; one that waits when the goroutine ends is never told (the full claim, that a waiting reader is told, is refuted).", "quantifier": "all schedules of the application, the goroutine and the reader, closing at any moment, all requests and prunings before and after", "why_tests_cant": "The claim is about every finite history of operations; tests exercise a few short histories.", "anchors": ["utils/growing_bytes.go:NewGrowingBytes", "utils/growing_bytes.go:NextAbsolute", "utils/growing_bytes.go:Prune"]}
{"id": "C85", "title": "Bytes that have not arrived", "statement": "A message decoder returns only what has been sent: whatever lies in memory behind the buffer of bytes received, and however the bytes arrive, it shows in no message. (Proved for the decoders that wait for each field; for the others, what lies there matters only where a field has not arrived, and then the claim is refuted: zeros are returned in its place.)", "quantifier": "all byte sequences, all schedules of arrival, all contents of memory behind the buffer at each slice expression, all codecs of the caller", "why_tests_cant": "The input space is unbounded; a test samples finitely many inputs and cannot exclude a counterexample elsewhere.", "anchors": ["pkg/wgps/decoding/control.go:DecodeControlFree", "pkg/wgps/decoding/data.go:DecodeDataSendPayload", "pkg/wgps/decoding/data.go:DecodeDataBindPayloadRequest", "pkg/wgps/decoding/pai.go:DecodePaiRequestSubspaceCapability", "pkg/wgps/decoding/pai.go:DecodePaiReplyFragment", "pkg/wgps/decoding/reconciliation.go:DecodeReconciliationAnnounceEntries", "utils/growing_bytes.go:NewGrowingBytes"]}
{"id": "C86", "title": "Several readers of one stream", "statement": "Whatever readers of the same stream call at the same time, what a call returns is a stretch of the stream and no byte is lost; a sole reader's NextRelative(k) returns what was there and at least k bytes more. (That every call gets as many bytes as it asked for, that two calls for the same length are both answered, and that NextRelative returns once its bytes were sent, are refuted; of two calls waiting at one resolver at least one never returns, and a call whose request was replaced never returns.)", "quantifier": "all schedules of the network, the goroutine and any number of readers, all requests and prunings", "why_tests_cant": "The claim is about every finite history of operations; tests exercise a few short histories.", "anchors": ["utils/growing_bytes.go:NextAbsolute", "utils/growing_bytes.go:NextRelative", "utils/growing_bytes.go:Prune", "utils/growing_bytes.go:NewGrowingBytes"]}
{"id": "C87", "title": "Reading and clearing a database that fails", "statement": "Whatever calls of pebble fail, and wherever an iterator stops: GetMultipleValues, ListAllValues, ListValues and Query leave the database as it is and give the right answer, an error, or the end of the process, never a wrong or shortened answer. A Clear that reports no error has removed everything; one that reports an error leaves the keys from some key on, and can be repeated. Iterators and values taken from pebble are given back (for ListValues: but for one value at most; that all are is refuted).", "quantifier": "all databases, all areas of interest and ranges, all sequences of outcomes of pebble's calls", "why_tests_cant": "The claim is about every finite history of operations; tests exercise a few short histories.", "anchors": ["pkg/data_model/kv_driver/kv_driver_pebble.go:Get", "pkg/data_model/kv_driver/kv_driver_pebble.go:Clear", "pkg/data_model/kv_driver/kv_driver_pebble.go:ListAllValues", "pkg/data_model/kv_driver/kv_driver_pebble.go:GetMultipleValues", "pkg/data_model/kv_driver/kv_driver_pebble.go:ListValues", "pkg/data_model/entry_driver/entry_driver.go:Query"]}
{"id": "C88", "title": "Decoding relative to a path in memory", "statement": "Whatever the memory of the reference, decoding a path, an entry, an area or a 3d range relative to it returns what it returns on values, and what was decoded before, the reference among it, keeps its value. (Proved exactly: the outcome and everything but paths are as on values; where a path has room in the array of its reference it is written there; ranges and areas for which nothing is damaged; the entry decoded last is right. Refuted: the start of a range is overwritten by its end, the end is made from the start, positions in byte slices move, entries sent one after the other all get the path of the last; an entry decoded in an area or a range moves the area or the range.)", "quantifier": "all memories, all references in them, all capacities, all growth policies of append, all bytes and schedules of arrival", "why_tests_cant": "The claim is about every finite history of operations; tests exercise a few short histories.", "anchors": ["utils/paths.go:DecodeRelativePath", "utils/paths.go:DecodeRelPathStream", "utils/ranges.go:DecodeStreamRange3dRelative", "utils/ranges.go:DecodeRange3dRelative", "utils/areas.go:DecodeAreaInArea", "utils/areas.go:DecodeStreamAreaInArea", "utils/areas.go:DecodeStreamEntryInNamespaceArea", "utils/entries.go:DecodeStreamEntryRelativeEntry", "utils/entries.go:DecodeStreamEntryRelativeRange3d"]}
{"id": "C89", "title": "Ingesting a payload when calls fail", "statement": "Whatever calls of pebble and of the operating system fail: IngestPayload returns success only for bytes that have the length and the digest of the entry, or a beginning of them where that is allowed, and then they are on the disk; with any other result nothing is stored; other payloads and other files being received keep their bytes. (Proved of all of IngestPayload: it never stores anything. Of the part behind its two tests: exactly which results leave what. That success for a part means the part is on the disk, and that an error means nothing was stored, are refuted.)", "quantifier": "all databases, disks, payloads, offsets, all sequences of outcomes of the calls", "why_tests_cant": "The claim is about every finite history of operations; tests exercise a few short histories.", "anchors": ["pkg/data_model/store/store.go:IngestPayload", "pkg/data_model/payload_kv_driver/filesystem.go:Receive", "pkg/data_model/payload_kv_driver/filesystem.go:Get"]}
{"id": "C90", "title": "Interactive sessions when calls fail", "statement": "Whatever calls of pebble and of the file system fail during any session of the command-line program: a namespace holds nothing but entries typed inside it; a line other than set changes what no namespace holds; a set line that reports success has recorded the entry and written entries.json or says that it has not; one that reports an error has changed nothing; get prints the contents of a file set at that place; list and entries.json show what is held. (Proved: all but the last three, of which it is proved exactly what an error can leave, that a store left locked stops the next set line and is free after it was entered again, and that get prints the first bytes of a file set at that place or nothing. Those three as stated are refuted.)", "quantifier": "all sequences of lines, ends of input and starts, with any file system contents and clock, and for each all sequences of outcomes of the calls made", "why_tests_cant": "The claim is about every finite history of operations; tests exercise a few short histories.", "anchors": ["main.go:NameSpaceInteraction", "main.go:main", "main.go:writeEntriesToFile", "pkg/data_model/store/store.go:Set", "PinaGoladaStore/StoreDriver.go:InitKDTree"]}
{"id": "C91", "title": "The text of entries.json", "statement": "The text the program writes to entries.json can be read back without loss: it is a JSON text with one object for each key of the tree, in their order, whose fields give its time, subspace and path, and its fingerprint exactly if that is UTF-8; equal texts mean equal lists; a text cut short is not read as anything. After every input that leaves a session of the program inside a namespace, the sessions being those whose set lines stay strictly below the path limits, the text is read as exactly the entries the namespace holds, each once.", "quantifier": "all lists of keys, with nil slices or not, all times, byte strings and paths; all sessions below the path limits", "why_tests_cant": "The input space is unbounded; a test samples finitely many inputs and cannot exclude a counterexample elsewhere.", "anchors": ["main.go:writeEntriesToFile", "main.go:NameSpaceInteraction", "pkg/data_model/kdnode/willowkdtreenode.go:Key"]}
