{"id": "C01", "title": "Event serialization is unambiguous", "statement": "Two events whose author key contains no quote or backslash byte (every hex key qualifies) serialize to the same bytes only if they agree on author, timestamp, kind, tags and content; so apart from SHA-256 collisions an event id determines exactly those five fields.", "quantifier": "all pairs of events, with tags and content of any size and any byte values", "why_tests_cant": "A test compares a handful of serializations; it cannot rule out that some pair of distinct tag lists or contents with odd bytes collapses to the same text.", "anchors": ["event.go: Event.Serialize, serializeEventInto", "helpers.go: escapeString"]}
{"id": "C02", "title": "Serialization is the NIP-01 JSON array", "statement": "The bytes hashed for an event id are a well-formed JSON text, and reading them with the JSON grammar yields exactly [0, pubkey, created_at, kind, tags, content] with every string value recovered byte for byte.", "quantifier": "all events whose author key needs no escaping; all bytes in tags and content", "why_tests_cant": "Escaping has 256 byte classes in every position of unbounded strings; tests sample a few.", "anchors": ["event.go: serializeEventInto", "helpers.go: escapeString"]}
{"id": "C03", "title": "Id check accepts exactly the recomputed id", "statement": "CheckID returns true iff the id field is the 64-character lowercase hex encoding of the hash of the event's serialization (no other id, no other case, no other length is accepted).", "quantifier": "all events and all strings in the id field, for any hash function with 32-byte output", "why_tests_cant": "The check compares nibbles by hand; a test cannot try every wrong id.", "anchors": ["event.go: Event.CheckID, Event.GetID"]}
{"id": "C04", "title": "Signing yields an event that verifies", "statement": "After Sign with a secret key succeeds, the event's author is the public key of that secret key, CheckID and CheckSignature both accept it, and content, kind, timestamp and tags (nil read as empty) are unchanged; moreover CheckSignature stays true whatever string is later put in the id field, because it recomputes the hash.", "quantifier": "all events, all secret keys, any signature scheme in which honest signatures verify", "why_tests_cant": "Needs all events and all keys; cryptographic primitive kept abstract.", "anchors": ["signature.go: Event.Sign, Event.CheckSignature", "keys.go: GetPublicKey"]}
{"id": "C05", "title": "Event kinds are classified into disjoint classes", "statement": "Every kind is in at most one of regular, replaceable, ephemeral and addressable; every kind below 40000 is in exactly one; the class boundaries are those of NIP-01 (0, 3, 10000-19999, 20000-29999, 30000-39999).", "quantifier": "all integers", "why_tests_cant": "The domain is unbounded and boundaries are where mistakes live.", "anchors": ["kinds.go: IsRegularKind, IsReplaceableKind, IsEphemeralKind, IsAddressableKind"]}
{"id": "C06", "title": "Event comparison is a total order usable for sorting", "statement": "CompareEvent is reflexive, antisymmetric (up to id and timestamp), transitive and total; CompareEventReverse is exactly its opposite, and the pointer variants agree with them and put nil consistently at one end; hence sorting with them yields a unique order on events with distinct ids.", "quantifier": "all triples of events", "why_tests_cant": "Order laws are universally quantified over triples.", "anchors": ["utils.go: CompareEvent, CompareEventReverse, CompareEventPtr, CompareEventPtrReverse"]}
{"id": "C07", "title": "Filter matching has the NIP-01 meaning", "statement": "Filter.Matches(event) holds iff each present condition holds: id listed, kind listed, author listed, for every tag condition some tag of the event has that name and one of the listed values, created_at >= since and <= until; a nil list imposes nothing and an empty non-nil list matches nothing.", "quantifier": "all filters and events", "why_tests_cant": "Unbounded combinations of present and absent conditions; tests fix a few.", "anchors": ["filter.go: Filter.Matches, MatchesIgnoringTimestampConstraints", "tags.go: Tags.ContainsAny"]}
{"id": "C08", "title": "A filter list is a disjunction", "statement": "Filters.Match accepts an event iff some filter in the list matches it; adding filters never removes a match, order and duplicates are irrelevant, and the empty list matches nothing.", "quantifier": "all filter lists and events", "why_tests_cant": "Quantifies over all lists and permutations.", "anchors": ["filter.go: Filters.Match"]}
{"id": "C09", "title": "Narrowing a filter only removes matches", "statement": "Adding an id, kind, author or tag value to a non-nil list never loses a match, and adding a further condition (a new list, a new tag key, a later since, an earlier until) never gains one.", "quantifier": "all filters, events and extensions", "why_tests_cant": "Monotonicity is a statement about all pairs of filters.", "anchors": ["filter.go: Filter.Matches"]}
{"id": "C10", "title": "Equal filters match the same events", "statement": "If FilterEqual(a,b) is true then a and b match exactly the same events and FilterEqual(b,a) is true; FilterEqual is reflexive and equal filters also ask for the same number of events.", "quantifier": "all pairs of filters and all events", "why_tests_cant": "Quantifies over pairs of filters and every event.", "anchors": ["filter.go: FilterEqual", "helpers.go: similar, arePointerValuesEqual"]}
{"id": "C11", "title": "A cloned filter is equal and independent", "statement": "Filter.Clone returns a filter with the same contents, and writes through any slice, map or pointer of either one never change what the other one contains.", "quantifier": "all filters and all sequences of later writes through either filter", "why_tests_cant": "Aliasing needs all write sequences; a test checks one or two fields.", "anchors": ["filter.go: Filter.Clone"]}
{"id": "C12", "title": "Theoretical limit bounds the number of results", "statement": "If GetTheoreticalLimit returns n >= 0 then any set of events that all match the filter and that a relay may hold at once (distinct ids, at most one per author and kind for replaceable kinds, at most one per author, kind and d for addressable kinds) has at most n elements.", "quantifier": "all filters and all event sets", "why_tests_cant": "Quantifies over every store content.", "anchors": ["filter.go: GetTheoreticalLimit"]}
{"id": "C13", "title": "Tag lookup returns the first or last match", "statement": "Find, FindWithValue, FindLast and FindLastWithValue return the first (last) tag with at least two items with the given name (and value), and nothing iff none exists; FindAll yields precisely those tags in order; GetD is the value of the first d tag or empty.", "quantifier": "all tag lists, names and values", "why_tests_cant": "Universal over lists; tests use short ones.", "anchors": ["tags.go: Find, FindAll, FindWithValue, FindLast, FindLastWithValue, GetD"]}
{"id": "C14", "title": "Tag filtering keeps exactly the non-matching tags", "statement": "FilterOut returns, in order, exactly the tags that do not start with the given prefix; FilterOutInPlace leaves the same multiset of tags; GetAll returns exactly the others, so together they partition the list.", "quantifier": "all tag lists and non-empty prefixes", "why_tests_cant": "In-place removal by swapping has history-dependent index errors that need every list.", "anchors": ["tags.go: GetAll, FilterOut, FilterOutInPlace, StartsWith"]}
{"id": "C15", "title": "AppendUnique adds a tag once", "statement": "After AppendUnique(tag) the list contains the tag; tags already in the list keep their order; appending the same tag again changes nothing; and a tag that is not yet in the list is added.", "quantifier": "all tag lists and tags", "why_tests_cant": "Universal over lists.", "anchors": ["tags.go: AppendUnique"]}
{"id": "C16", "title": "Cloning tags copies them", "statement": "Tag.Clone, Tags.Clone and Tags.CloneDeep return a copy with equal contents.", "quantifier": "all tags", "why_tests_cant": "Universal claim over all inputs.", "anchors": ["tags.go: Tag.Clone, Tags.Clone, Tags.CloneDeep"]}
{"id": "C17", "title": "Events survive a JSON round trip", "statement": "Decoding the JSON encoding of an event gives the same event (nil tags read as an empty list), for events whose id, author and signature fields are plain hex and whose text is valid for the encoder.", "quantifier": "all events with any tags and content", "why_tests_cant": "Unbounded strings with escapes in nested lists.", "anchors": ["event_easyjson.go: easyjsonEncodeEvent, easyjsonDecodeEvent"]}
{"id": "C18", "title": "Filters survive a JSON round trip", "statement": "Decoding the JSON encoding of a filter gives a filter with the same lists, tag conditions, times, limit and search, so it matches the same events and asks for the same number.", "quantifier": "all filters", "why_tests_cant": "Omission rules interact (nil versus empty, zero versus absent).", "anchors": ["filter_easyjson.go: easyjsonEncodeFilter, easyjsonDecodeFilter"]}
{"id": "C19", "title": "Message envelopes survive the wire", "statement": "For each protocol message (EVENT, REQ, COUNT, NOTICE, EOSE, CLOSE, CLOSED, OK, AUTH) parsing the encoded message gives back the same message of the same type.", "quantifier": "all messages of each type whose subscription id needs no escaping", "why_tests_cant": "Nine grammars with unbounded payloads.", "anchors": ["envelopes.go: *Envelope.MarshalJSON, *Envelope.FromJSON", "envelopes_default.go: ParseMessage"]}
{"id": "C20", "title": "The early scanners agree with the full parser", "statement": "On any message produced by encoding an EVENT for a subscription, the fast text scanners used by the relay reader extract the same subscription id, event id, author and timestamp as full decoding does, whatever the event's content and tags contain.", "quantifier": "all events and subscription ids, including content that itself contains quoted field names", "why_tests_cant": "Adversarial content can mimic the scanned field names; tests do not try all.", "anchors": ["helpers.go: extractSubID, extractEventID, extractEventPubKey, extractTimestamp, extractDTag"]}
{"id": "C21", "title": "bech32 text round trip and error detection", "statement": "Decoding the bech32 encoding of any prefix and 5-bit data returns them; any single-character substitution in the data part of a valid code is rejected.", "quantifier": "all prefixes, all data of any length, all positions and substitutes", "why_tests_cant": "Exhaustive substitution over unbounded length is impossible by testing.", "anchors": ["nip19/nip19.go: Decode (bech32.DecodeNoLimit), Encode* (bech32.Encode)"]}
{"id": "C22", "title": "Regrouping bits is invertible", "statement": "Regrouping bytes into 5-bit groups with padding and back without padding returns the same bytes for every byte string.", "quantifier": "all byte strings", "why_tests_cant": "All lengths modulo 5 and all bit patterns.", "anchors": ["nip19/nip19.go: uses of bech32.ConvertBits"]}
{"id": "C23", "title": "nsec, npub and note codes round trip", "statement": "For every 32-byte hex value, decoding the nsec, npub or note code gives back the prefix and the same lowercase hex.", "quantifier": "all 32-byte values", "why_tests_cant": "2^256 values.", "anchors": ["nip19/nip19.go: EncodePrivateKey, EncodePublicKey, EncodeNote, Decode"]}
{"id": "C24", "title": "nprofile, nevent and naddr codes round trip", "statement": "Decoding an nprofile, nevent or naddr code gives back the pointer it was made from: key or id, relays in order, author when present, kind and identifier.", "quantifier": "all pointers whose relays and identifiers fit a one-byte length; any number of relays", "why_tests_cant": "TLV streams of unbounded length.", "anchors": ["nip19/nip19.go: EncodeProfile, EncodeEvent, EncodeEntity, Decode", "nip19/helpers.go: readTLVEntry, writeTLVEntry"]}
{"id": "C25", "title": "Decoding a nostr code never crashes and never yields a malformed pointer", "statement": "Decode returns an error or a value for every input string, and a successful result always has a 32-byte key or id.", "quantifier": "all strings", "why_tests_cant": "Crash freedom over all inputs.", "anchors": ["nip19/nip19.go: Decode"]}
{"id": "C26", "title": "EncodePointer keeps the pointer", "statement": "Encoding any profile, event or entity pointer with EncodePointer and reading it back with ToPointer returns the same pointer.", "quantifier": "all pointers", "why_tests_cant": "Three pointer types with optional fields.", "anchors": ["nip19/pointer.go: EncodePointer, ToPointer"]}
{"id": "C27", "title": "Pointers and tags convert both ways", "statement": "Building a tag from a pointer and parsing it back gives the same pointer (up to relays beyond the first), an entity pointer's tag reference splits back into kind, key and identifier even when the identifier contains colons, and an event matches a pointer iff it matches the pointer's filter.", "quantifier": "all pointers and events", "why_tests_cant": "Identifiers are arbitrary strings.", "anchors": ["pointers.go: ProfilePointerFromTag, EventPointerFromTag, EntityPointerFromTag, AsTag, AsTagReference, AsFilter, MatchesEvent"]}
{"id": "C28", "title": "NIP-44 padding is a bijection onto its image", "statement": "For every plaintext of 1 to 65535 bytes, decrypting an encrypted payload with the same key returns the plaintext, the padded size depends only on the plaintext length, is at least 32, at least the length, monotone in the length and below twice the length for longer messages.", "quantifier": "all plaintexts, keys and nonces, for any stream cipher whose decryption inverts encryption and any MAC", "why_tests_cant": "65535 lengths times all contents.", "anchors": ["nip44/nip44.go: Encrypt, Decrypt, calcPadding"]}
{"id": "C29", "title": "NIP-44 rejects tampered payloads before decrypting", "statement": "If Decrypt succeeds then the payload's version is 2, the MAC over nonce and ciphertext equals the one in the payload, the length prefix is consistent with the padded size, and re-encrypting the returned plaintext under the payload's nonce gives the same payload.", "quantifier": "all payload strings and keys", "why_tests_cant": "All attacker-chosen payloads.", "anchors": ["nip44/nip44.go: Decrypt"]}
{"id": "C30", "title": "NIP-04 encryption round trips", "statement": "Decrypting an encrypted NIP-04 message with the same key returns the plaintext for every plaintext length.", "quantifier": "all plaintexts, keys and ivs, any block cipher whose decryption inverts encryption", "why_tests_cant": "All residues modulo the block size and all contents.", "anchors": ["nip04/nip04.go: Encrypt, Decrypt"]}
{"id": "C31", "title": "Decryption never crashes on foreign input", "statement": "nip04.Decrypt and nip44.Decrypt return a value or an error for every input.", "quantifier": "all input strings and keys", "why_tests_cant": "Crash freedom over all inputs.", "anchors": ["nip04/nip04.go: Decrypt", "nip44/nip44.go: Decrypt"]}
{"id": "C32", "title": "NIP-49 key encryption round trips", "statement": "Decrypting an ncryptsec produced with a password returns the same secret key, for every cost exponent and key-security byte.", "quantifier": "all 32-byte keys, passwords, salts and nonces, abstract KDF and AEAD", "why_tests_cant": "All byte values.", "anchors": ["nip49/nip49.go: Encrypt, Decrypt"]}
{"id": "C33", "title": "Proof-of-work difficulty is the number of leading zero bits", "statement": "Difficulty(id) equals the number of leading zero bits of the 32-byte value for every 64-character hex id and is negative for other lengths; Check accepts iff that number reaches the target; work found by DoWork commits to its target and meets it.", "quantifier": "all ids and targets; any number of worker threads", "why_tests_cant": "2^256 ids.", "anchors": ["nip13/nip13.go: Difficulty, CommittedDifficulty, Check, DoWork"]}
{"id": "C34", "title": "HyperLogLog merging is a join", "statement": "Adding keys in any order, with any repetitions, and merging in any grouping gives the same registers; merging is commutative, associative and idempotent and equals the sketch of the union.", "quantifier": "all multisets of keys, all orders and all merge trees", "why_tests_cant": "Order and grouping independence is universally quantified.", "anchors": ["nip45/hyperloglog/hll.go: Add, AddBytes, Merge, MergeRegisters"]}
{"id": "C35", "title": "Counting offsets agree between filter and event", "statement": "For a filter that HyperLogLogEventPubkeyOffsetForFilter accepts, every event matched that contributes to the count uses the same offset as the filter, and the offset is always in 8..23 so that 8 bytes are available in a 32-byte key.", "quantifier": "all filters and events", "why_tests_cant": "All ids and events.", "anchors": ["nip45/hll_filter.go", "nip45/hll_event.go"]}
{"id": "C36", "title": "Negentropy varints and bounds round trip", "statement": "Every number below 2^64 decodes from its varint encoding with the rest of the message untouched, and every sequence of bounds decodes to the same timestamps and id prefixes under the delta coding.", "quantifier": "all numbers, all bound sequences with non-decreasing timestamps", "why_tests_cant": "Unbounded sequences; delta state.", "anchors": ["nip77/negentropy/encoding.go: readVarInt, writeVarInt, readBound, writeBound, EncodeVarInt"]}
{"id": "C37", "title": "Bounds separate the items around them", "statement": "The bound computed between two consecutive items is above the first and not above the second, so no item is lost or sent twice when a range is split.", "quantifier": "all pairs of consecutive items", "why_tests_cant": "All pairs of ids and timestamps.", "anchors": ["nip77/negentropy/negentropy.go: getMinimalBound, SplitRange"]}
{"id": "C38", "title": "Fingerprints do not depend on order", "statement": "The fingerprint accumulator gives the same sum whatever the order in which ids are added, and equals the sum of the ids as little-endian numbers modulo 2^256.", "quantifier": "all sequences of ids", "why_tests_cant": "Carry propagation over all values.", "anchors": ["nip77/negentropy/storage/accumulator.go: AddBytes"]}
{"id": "C39", "title": "Splitting a range covers it exactly", "statement": "Splitting a range into buckets yields consecutive sub-ranges that cover every item of the range exactly once and whose sizes differ by at most one.", "quantifier": "all range sizes", "why_tests_cant": "All sizes modulo the number of buckets.", "anchors": ["nip77/negentropy/negentropy.go: SplitRange"]}
{"id": "C40", "title": "Set reconciliation finds exactly the difference", "statement": "When two honest parties reconcile, the protocol ends after finitely many messages, every id reported as held only locally is in the local set and not in the remote one, every id reported as missing is in the remote set and not in the local one, and every such id is reported, exactly once.", "quantifier": "all pairs of item sets, assuming equal fingerprints and counts imply equal sets and bounds separate", "why_tests_cant": "All pairs of sets, unbounded rounds.", "anchors": ["nip77/negentropy/negentropy.go: Start, Reconcile, reconcileAux, SplitRange"]}
{"id": "C41", "title": "Vector storage is a sorted sequence with binary search", "statement": "After Seal the items are ordered by timestamp then id, FindLowerBound returns the first index whose item is not below the bound, and Range yields exactly the items in that index interval.", "quantifier": "all item multisets and bounds", "why_tests_cant": "All lists.", "anchors": ["nip77/negentropy/storage/vector/vector.go: Insert, Seal, FindLowerBound, Range"]}
{"id": "C42", "title": "Negentropy protocol messages survive the wire", "statement": "NEG-OPEN, NEG-MSG, NEG-CLOSE and NEG-ERR messages parse back to the message that was encoded.", "quantifier": "all messages", "why_tests_cant": "Four grammars, unbounded payloads.", "anchors": ["nip77/envelopes.go: ParseNegMessage, MarshalJSON"]}
{"id": "C43", "title": "End of stored events comes after every stored event", "statement": "For a subscription, the end-of-stored-events signal is given at most once and only after every event received before it has been delivered or dropped because the subscription ended; an event received before is never delivered after the signal.", "quantifier": "all interleavings of the reader, the per-event tasks, the consumer and cancellation", "why_tests_cant": "Schedules are unbounded; race outcomes are rare.", "anchors": ["subscription.go: dispatchEvent, dispatchEose"]}
{"id": "C44", "title": "Every accepted event is delivered once while the subscription lives", "statement": "Each event dispatched to a live subscription is delivered exactly once unless the subscription is cancelled; no event is delivered that was not dispatched and none is delivered twice.", "quantifier": "all interleavings and event sequences", "why_tests_cant": "Quantifies over schedules.", "anchors": ["subscription.go: dispatchEvent, start"]}
{"id": "C45", "title": "Unsubscribing is clean", "statement": "A CLOSE message is sent at most once per subscription, the events channel is closed exactly once after cancellation, and nothing is sent on it afterwards (no crash), for every order of Unsub, context cancellation and relay CLOSED.", "quantifier": "all interleavings of Fire, Unsub, Close, cancellation and relay messages", "why_tests_cant": "Races between close and send.", "anchors": ["subscription.go: unsub, start, Fire, handleClosed, Close"]}
{"id": "C46", "title": "The reader only delivers valid matching events", "statement": "Every event delivered to a subscription matches its filters and, unless signature checking was switched off, has a valid signature; messages for unknown subscriptions are dropped.", "quantifier": "all sequences of relay messages, including hostile ones", "why_tests_cant": "Hostile message sequences are unbounded.", "anchors": ["relay.go: ConnectWithTLS reader loop", "subscription.go: match"]}
{"id": "C47", "title": "Publish reports the relay's answer", "statement": "Publish returns success only if the relay accepted this event; a rejection, a cancelled context or a lost connection gives an error; an answer for another event is never attributed to it.", "quantifier": "all interleavings of publishes, OK messages, cancellation and disconnection", "why_tests_cant": "Schedules and message orders.", "anchors": ["relay.go: Publish, publish"]}
{"id": "C48", "title": "Subscription ids are unique and routed back", "statement": "Two subscriptions of the same process never share an id, and the serial read back from a subscription id is the one it was created with, whatever the label.", "quantifier": "all creation sequences and labels", "why_tests_cant": "All labels and counts.", "anchors": ["subscription.go: GetID", "relay.go: PrepareSubscription", "helpers.go: subIdToSerial"]}
{"id": "C49", "title": "Closing a relay connection is idempotent and releases everyone", "statement": "However many times and from wherever Close is called, the connection is closed once, later calls return an error, and every subscription of the relay is eventually ended.", "quantifier": "all interleavings", "why_tests_cant": "Schedules.", "anchors": ["relay.go: Close, close"]}
{"id": "C50", "title": "Multi-relay queries never repeat an event", "statement": "A query over several relays until their end of stored events delivers each event id at most once, delivers every id that some relay sent, and closes its channel after the last relay finished.", "quantifier": "all relay lists, event sequences and interleavings", "why_tests_cant": "Schedules across relays.", "anchors": ["pool.go: SubManyEose, subManyEoseNonOverwriteCheckDuplicate, BatchedSubManyEose"]}
{"id": "C51", "title": "A live multi-relay subscription ends cleanly", "statement": "When every relay of a live multi-relay subscription is finished, the events channel is closed exactly once.", "quantifier": "all relay lists, including repeated URLs, and interleavings", "why_tests_cant": "Race at the end of the last two relays.", "anchors": ["pool.go: subMany"]}
{"id": "C52", "title": "Fetching replaceable events returns the newest version", "statement": "The map returned by FetchManyReplaceable holds, for each (author, d) key, the newest of the versions sent by the relays, whatever the order of arrival.", "quantifier": "all sequences of versions from all relays", "why_tests_cant": "Arrival orders.", "anchors": ["pool.go: FetchManyReplaceable", "relay.go: checkDuplicateReplaceable"]}
{"id": "C53", "title": "Publishing to many relays gives one result per relay", "statement": "PublishMany delivers exactly one result for each URL given and then closes the channel.", "quantifier": "all URL lists and interleavings", "why_tests_cant": "Schedules.", "anchors": ["pool.go: PublishMany"]}
{"id": "C54", "title": "A failing relay is backed off exponentially", "statement": "After n consecutive connection failures the pool waits at least the documented penalty before dialling the same relay again, and a success resets it.", "quantifier": "all sequences of attempts, failures and times", "why_tests_cant": "Time histories.", "anchors": ["pool.go: EnsureRelay"]}
{"id": "C55", "title": "Paginating yields every matching event once", "statement": "Iterating pages from a store that returns the newest matches yields each matching event exactly once, in non-increasing timestamp order, and stops; a limit is respected.", "quantifier": "all stores, page sizes and event sets, including many events with the same timestamp", "why_tests_cant": "Same-timestamp page boundaries.", "anchors": ["paginator.go: PaginatorWithInterval"]}
{"id": "C56", "title": "A multi-store query merges all stores", "statement": "QuerySync over several stores returns all events of all stores, newest first; Publish reaches every store and reports the errors of those that failed.", "quantifier": "all store lists and contents", "why_tests_cant": "Universal over stores.", "anchors": ["interface.go: MultiStore.QuerySync, Publish, QueryEvents"]}
{"id": "C57", "title": "Batched loading answers every caller with its own key", "statement": "Each Load receives the result computed for its own key, or an error, exactly once, and no batch exceeds the configured size, for any concurrent callers.", "quantifier": "all interleavings of callers, timers and batches", "why_tests_cant": "Schedules.", "anchors": ["sdk/dataloader/dataloader.go: Load, batcher"]}
{"id": "C58", "title": "The in-memory key-value store behaves as a map", "statement": "Get returns the last value Set or produced by Update for the key since the last Delete; other keys are unaffected; an Update that declines changes nothing; stored values are unaffected by later writes to the caller's buffers.", "quantifier": "all operation sequences", "why_tests_cant": "All histories.", "anchors": ["sdk/kvstore/memory/store.go"]}
{"id": "C59", "title": "Relay hints keep the newest time per kind of hint", "statement": "After any sequence of saves, the time recorded for (key, relay, hint kind) is the maximum of the saved times capped at the clock at save time, in every backend; TopN returns at most n relays, all of which were saved, best score first.", "quantifier": "all save sequences", "why_tests_cant": "All orders of saves.", "anchors": ["sdk/hints/memoryh/db.go: Save, TopN", "sdk/hints/sqlh/db.go: Save", "sdk/hints/lmdbh/db.go: Save, TopN", "sdk/hints/badgerh/db.go"]}
{"id": "C60", "title": "Relay lists stored per event round trip", "statement": "The relay list stored for an event decodes to the relays that were stored, in order.", "quantifier": "all relay lists", "why_tests_cant": "All lengths including 256.", "anchors": ["sdk/event_relays.go: encodeRelayList, decodeRelayList"]}
{"id": "C61", "title": "Batch loaders keep the newest version", "statement": "The replaceable loader returns for each author the newest event received, the addressable loader returns exactly one event per identifier and it is the newest, whatever the arrival order.", "quantifier": "all event sequences", "why_tests_cant": "Arrival orders.", "anchors": ["sdk/replaceable_loader.go: batchLoadReplaceableEvents", "sdk/addressable_loader.go: batchLoadAddressableEvents"]}
{"id": "C62", "title": "Web-of-trust loading answers every caller", "statement": "Every concurrent LoadWoTFilter call returns: either as the one that computes, or with the result computed for the same key; never with another key's result.", "quantifier": "all interleavings of callers", "why_tests_cant": "Lost wake-ups need a specific schedule.", "anchors": ["sdk/wot.go: LoadWoTFilter"]}
{"id": "C63", "title": "Parsed lists contain every well-formed item", "statement": "A list or set event parses to exactly its well-formed items in order (follows, relays, bookmarks, topics).", "quantifier": "all tag lists", "why_tests_cant": "All tags.", "anchors": ["sdk/lists_profile.go", "sdk/lists_event.go", "sdk/lists_relay.go", "sdk/lists_topics.go", "sdk/list.go: parseItemsFromEventTags"]}
{"id": "C64", "title": "appendUnique is set union in order", "statement": "appendUnique(list, items...) contains exactly the elements of both, keeps the order, and adds no duplicates.", "quantifier": "all lists", "why_tests_cant": "Universal.", "anchors": ["sdk/helpers.go: appendUnique"]}
{"id": "C65", "title": "Gift wrapping hides and returns the rumor", "statement": "Unwrapping a gift wrap with the recipient's key returns the rumor with the sender's key as author and a recomputed id; the author of an unwrapped rumor is always the key that signed the seal, and an invalid seal signature is always rejected.", "quantifier": "all rumors, keys and wrap modifications; abstract encryption and signatures", "why_tests_cant": "All payloads.", "anchors": ["nip59/nip59.go: GiftWrap, GiftUnwrap"]}
{"id": "C66", "title": "A remote signer answers only what is authorised, for the right user", "statement": "A remote signer never returns a result for a request the authoriser refused, its answer is encrypted to the requester, carries the request's id, and speaks for the user that the addressed handler represents.", "quantifier": "all request sequences from any clients to any handlers", "why_tests_cant": "Session state depends on the history.", "anchors": ["nip46/static-key-signer.go", "nip46/dynamic-signer.go", "nip46/bunker_session.go"]}
{"id": "C67", "title": "Signer sessions are a correct ordered map", "statement": "The session table keeps its keys sorted and unique, and lookup after any sequence of insertions returns the session first created for that client.", "quantifier": "all insertion sequences", "why_tests_cant": "Insertion by copying at an index; all orders.", "anchors": ["nip46/static-key-signer.go: getOrCreateSession, GetSession", "nip46/dynamic-signer.go: setSession"]}
{"id": "C68", "title": "Every keyer decrypts what was encrypted to it", "statement": "For every keyer implementation, Decrypt of a payload encrypted by the other party returns the plaintext.", "quantifier": "all plaintexts and keys", "why_tests_cant": "All keyers and payloads.", "anchors": ["keyer/plain.go", "keyer/encrypted.go", "keyer/bunker.go"]}
{"id": "C69", "title": "The ecash wallet conserves money", "statement": "Sending moves exactly the amount out: selected proofs cover amount and fee, the principal equals the amount, principal + change + fee = selected proofs without wraparound, and afterwards the wallet holds exactly the unused tokens plus the change.", "quantifier": "all wallets, amounts and fee schedules", "why_tests_cant": "Amount arithmetic modulo 2^64 and all selections.", "anchors": ["nip60/send.go: Send, getProofsForSending, saveChangeAndDeleteUsedTokens", "nip60/swap.go: splitIntoPrincipalAndChange", "nip60/helpers.go: calculateFee"]}
{"id": "C70", "title": "Invoice amounts are read correctly", "statement": "The amount in satoshis read from a bolt11 prefix is the invoice amount for each multiplier, rounded down, with no wraparound for amounts that exist.", "quantifier": "all invoice strings", "why_tests_cant": "All digit strings.", "anchors": ["nip60/helpers.go: GetSatoshisAmountFromBolt11"]}
{"id": "C71", "title": "Token deletion removes exactly the deleted token", "statement": "removeDeletedToken removes all tokens with the id and keeps all others; the final wallet content does not depend on the interleaving of token and deletion events before end-of-stored-events.", "quantifier": "all event sequences", "why_tests_cant": "Histories.", "anchors": ["nip60/wallet.go: removeDeletedToken, loadWallet"]}
{"id": "C72", "title": "Group state converts to events and back", "statement": "The metadata, admins, members and roles events produced from a group and merged into a fresh group give the same group; merging an event older than the one already merged is refused.", "quantifier": "all groups and all merge sequences", "why_tests_cant": "State across merges.", "anchors": ["nip29/group.go: ToMetadataEvent, ToAdminsEvent, ToMembersEvent, MergeInMetadataEvent, MergeInAdminsEvent, MergeInMembersEvent"]}
{"id": "C73", "title": "Parsing content into blocks loses nothing", "statement": "The blocks produced from a note's content, concatenated, are exactly the content, in order, and each reference block carries the pointer decoded from its own text; parsing never crashes.", "quantifier": "all contents", "why_tests_cant": "All strings.", "anchors": ["nip27/blocks.go: Parse"]}
{"id": "C74", "title": "Repository announcements and states round trip", "statement": "Parsing the event built from a repository or repository state gives back the same fields.", "quantifier": "all repositories and states", "why_tests_cant": "All field combinations.", "anchors": ["nip34/repository.go", "nip34/state.go"]}
{"id": "C75", "title": "Structured tag conversions round trip", "statement": "For file metadata, live events and calendar events, parsing the tags built from a value gives the value back.", "quantifier": "all values", "why_tests_cant": "All field combinations.", "anchors": ["nip94/nip94.go", "nip53/nip53.go", "nip52/calendar_event.go"]}
{"id": "C76", "title": "URL and message normalisation is stable", "statement": "Normalising an OK message twice gives the same as once, and the result always has a machine-readable prefix.", "quantifier": "all strings", "why_tests_cant": "All strings.", "anchors": ["normalize.go: NormalizeOKMessage, NormalizeURL"]}
{"id": "C77", "title": "Authentication events are validated completely", "statement": "ValidateAuthEvent accepts an event only if its kind, challenge, relay, time window and signature are all right, and then returns its author; the event built by CreateUnsignedAuthEvent and signed is accepted by it within the time window.", "quantifier": "all events, challenges, relays and times", "why_tests_cant": "All events.", "anchors": ["nip42/nip42.go: CreateUnsignedAuthEvent, ValidateAuthEvent"]}
{"id": "C78", "title": "Group kind lists answer membership", "statement": "KindRange.Includes on the moderation and metadata kind lists returns true exactly for the kinds listed, and on any ascending list it is membership.", "quantifier": "all ascending lists and kinds", "why_tests_cant": "Binary search over all lists.", "anchors": ["nip29/nip29.go: KindRange.Includes, ModerationEventKinds, MetadataEventKinds"]}
{"id": "C79", "title": "The sdk's memory cache is a map", "statement": "A value got for a key is the one last set for that key, and nothing is got for a key never set or deleted since.", "quantifier": "all sequences of Set and Delete, all keys", "why_tests_cant": "Two keys that collide must be used together.", "anchors": ["sdk/cache/memory/cache.go"]}
{"id": "C80", "title": "A feed page has everything before its time", "statement": "FetchFeedPage returns the events before until that the store or the relays have, and remembers the oldest time seen.", "quantifier": "all records, times, limits, stores and relay answers", "why_tests_cant": "Needs particular combinations of record, local events and limit.", "anchors": ["sdk/feeds.go: FetchFeedPage"]}
{"id": "C81", "title": "User input becomes the right pointer", "statement": "InputToProfile and InputToEventPointer give the pointer of every valid hex key, npub, nprofile, note and nevent, and nil, not a crash, for anything else.", "quantifier": "all strings", "why_tests_cant": "Malformed codes with a valid checksum are rarely tried.", "anchors": ["sdk/input.go"]}
{"id": "C82", "title": "Lists come from cache, store or network as due", "statement": "A fetched list is the cached one, else the newest of the stored and the network's; the network is asked exactly when nothing is stored or the last attempt is too old.", "quantifier": "all stored events, clocks, records and network answers", "why_tests_cant": "Combinations of staleness and missing answers.", "anchors": ["sdk/list.go: fetchGenericList", "sdk/set.go: fetchGenericSets"]}
{"id": "C83", "title": "Choosing relays", "statement": "Relays to query are at most three and distinct, a relay stream goes round its URLs for ever, and outbox relays are as many as asked for, for the right key.", "quantifier": "all relay lists, counters and cache entries", "why_tests_cant": "Counter overflow and cache reuse.", "anchors": ["sdk/system.go: RelayStream.Next", "sdk/replaceable_loader.go: determineRelaysToQuery", "sdk/outbox.go: FetchOutboxRelays"]}
{"id": "C84", "title": "Preparing a note tags every reference once", "statement": "After PrepareNoteEvent every reference in the content has one tag, other tags are kept, and preparing again changes nothing.", "quantifier": "all contents and tags", "why_tests_cant": "Repeated mentions and repeated preparation.", "anchors": ["sdk/note.go: PrepareNoteEvent"]}
{"id": "C85", "title": "Concurrent calls to a remote signer each get their own answer", "statement": "Every RPC returns the answer to its own request, once; the reader goroutine survives any answers and cancellations, and a published and answered request returns.", "quantifier": "all interleavings of calls, relay goroutines, cancellations and answers", "why_tests_cant": "Depends on the order in which goroutines reach their selects.", "anchors": ["nip46/client.go: NewBunker, RPC"]}
{"id": "C86", "title": "keyer.New builds the signer of the key it is given", "statement": "A hexadecimal key, an nsec and an encrypted key give a signer with that key; anything else is refused.", "quantifier": "all inputs", "why_tests_cant": "All texts.", "anchors": ["keyer/lib.go: New"]}
{"id": "C87", "title": "A private message reaches both sides", "statement": "Of the two wraps PrepareMessage makes, the sender reads one and the recipient the other, and both read the message with the sender as author.", "quantifier": "all messages, tags and keys", "why_tests_cant": "All payloads.", "anchors": ["nip17/nip17.go: PrepareMessage, ListenForMessages"]}
{"id": "C88", "title": "Wallet metadata survive saving and the newest event stands", "statement": "The wallet event written by toEvent is read back to the same key and mints; of several events the newest one stands.", "quantifier": "all wallets, all event sequences", "why_tests_cant": "All orders of arrival.", "anchors": ["nip60/wallet.go: toEvent, parse, loadFromPool"]}
{"id": "C89", "title": "History entries survive saving", "statement": "A history entry written as an event and read back is the same entry: direction, amount, and its token references, the nutzap ones in clear.", "quantifier": "all entries, all lawful ciphers", "why_tests_cant": "All reference lists and amounts.", "anchors": ["nip60/history.go: toEvent, parse"]}
{"id": "C90", "title": "Nutzaps go to a mint of the recipient and are locked to their key", "statement": "Nutzap information read back is what was written; a mint is tried exactly when the recipient trusts it and we hold enough there; the proofs sent are locked to the recipient's key.", "quantifier": "all infos, wallets, amounts, mint behaviours", "why_tests_cant": "Mint behaviour and balances are unbounded.", "anchors": ["nip61/info.go", "nip61/nip61.go: SendNutzap, getEligibleTokensWeHave", "nip60/send.go: WithP2PK"]}
{"id": "C91", "title": "Nutzap verification accepts exactly sound nutzaps", "statement": "VerifyNutzap accepts only if every proof carries a valid DLEQ of the mint, counts each once, returns the sum, and never crashes.", "quantifier": "all events, all key sets", "why_tests_cant": "All proof lists.", "anchors": ["nip61/verify.go: VerifyNutzap, verifyProofDLEQ"]}
{"id": "C92", "title": "The wallet's locks never deadlock", "statement": "A send and the handling of incoming wallet events exclude each other where they should and cannot block each other for ever.", "quantifier": "all schedules", "why_tests_cant": "Interleavings.", "anchors": ["nip60/send.go", "nip60/wallet.go"]}
{"id": "C93", "title": "References in a note are exactly the nostr: mentions in it", "statement": "ParseReferences finds the maximal nostr: codes that start at a word boundary, in order and without overlap. Each yields its text, its place and the pointer its code decodes to, with the relay hint of the first matching tag. It never crashes.", "quantifier": "all contents and tags", "why_tests_cant": "Any text can be posted.", "anchors": ["nip27/references.go: ParseReferences"]}
{"id": "C94", "title": "Thread root and parent follow the tags", "statement": "The root is the first tag marked root, else the first event tag; the parent is the first tag marked reply, else the last marked parent, else the last unmarked reference; a mention is never a parent. A comment's root and parent are the first upper or lower case reference tag.", "quantifier": "all tag lists", "why_tests_cant": "Order and markers combine freely.", "anchors": ["nip10/nip10.go: GetThreadRoot, GetImmediateParent", "nip22/nip22.go"]}
{"id": "C96", "title": "A repost of a protected event is recognised", "statement": "HasEmbeddedProtected holds of a repost exactly when the event written in it carries the tag [\"-\"].", "quantifier": "all embedded events", "why_tests_cant": "A scan of text by substring; any string can sit in a tag or the content.", "anchors": ["nip70/nip70.go: IsProtected, HasEmbeddedProtected"]}
{"id": "C97", "title": "Values kept in tags are read as written", "statement": "The first subject, alt and expiration tag with a value decides. Each imeta tag yields one entry with the last value of each field.", "quantifier": "all tag lists", "why_tests_cant": "Tag lists of any length.", "anchors": ["nip14/subject.go", "nip31/nip31.go", "nip40/nip40.go", "nip92/imeta.go"]}
{"id": "C95", "title": "Internet identifiers are parsed, normalised and looked up exactly", "statement": "An identifier is accepted exactly when it is name@domain or a domain of two or more labels. Normalising keeps the name and domain, and two identifiers have the same normal form exactly when they name the same. The address that is asked names one identifier, and the answer is the valid key the domain lists for the name.", "quantifier": "all strings, all servers", "why_tests_cant": "Strings of any shape.", "anchors": ["nip05/nip05.go"]}
{"id": "C98", "title": "Relay management requests decode to what they ask", "statement": "DecodeRequest gives exactly the operation that method and params ask for, with checked keys and ids, and never crashes.", "quantifier": "all methods and param lists", "why_tests_cant": "Params of any type and number.", "anchors": ["nip86/methods.go: DecodeRequest"]}
{"id": "C99", "title": "Relay information documents", "statement": "Adding nips keeps a set: no duplicates, nothing lost. Fetch asks the http address of the relay and always returns the URL.", "quantifier": "all lists of numbers, all URLs", "why_tests_cant": "Lists of any length.", "anchors": ["nip11/types.go: AddSupportedNIP", "nip11/fetch.go: Fetch"]}
{"id": "C100", "title": "Media requests carry a signed grant for exactly what they ask", "statement": "The Authorization header of an upload, download, deletion or listing reads back as a valid event of the user that names the operation and the hash of the file, and runs out in a minute. What is downloaded has the hash that was asked for.", "quantifier": "all files, hashes, clocks, servers", "why_tests_cant": "All byte strings; the server answers anything.", "anchors": ["nipb0/blossom/*.go", "nip96/nip96.go"]}
{"id": "C101", "title": "Syncing with a relay asks for each id once and returns", "statement": "NegentropySync asks the source for each id that reconciliation names exactly once, in batches of at most fifty, returns nil only when all batches are through, and always returns. FetchIDsOnly forwards exactly the missing ids, in order, and closes the channel.", "quantifier": "all relay behaviours, all interleavings of the goroutines", "why_tests_cant": "Unbounded ids and schedules.", "anchors": ["nip77/nip77.go: NegentropySync", "nip77/idsonly.go: FetchIDsOnly", "nip77/idlistpool.go"]}
{"id": "C102", "title": "Counting at one relay and at many", "statement": "Count returns the relay's first COUNT reply and leaves the connection usable. CountMany merges the sketches of all relays: every register ends as the largest value that any relay sent for it.", "quantifier": "all message sequences, timers, numbers of relays and interleavings", "why_tests_cant": "The races need a precise schedule.", "anchors": ["relay.go: countInternal", "pool.go: CountMany", "nip45/hyperloglog/hll.go: MergeRegisters"]}
{"id": "C103", "title": "The fast message parser agrees with the plain one and its results keep their values", "statement": "The sonic parser reads back every message that the library writes as the message that was written. What it returns keeps its value while the parser reads further messages.", "quantifier": "all messages, all sequences of calls on one parser", "why_tests_cant": "Results share buffers across calls; only certain sequences show it.", "anchors": ["envelopes_sonic.go", "relay.go:241-316"]}
{"id": "C104", "title": "Reconciliation within a frame limit", "statement": "With a frame size limit, no message of either side is longer than the limit, and a session that ends without an error has still reported every id that only one side has.", "quantifier": "all storages, all limits, all messages from the peer", "why_tests_cant": "Whether the limit is hit, and where, depends on how the ids fall into buckets; losses show only for certain sets on both sides.", "anchors": ["nip77/negentropy/negentropy.go: New, reconcileAux, SplitRange", "nip77/negentropy/encoding.go"]}
{"id": "C105", "title": "What the tracker learns about relays", "statement": "An event seen at a relay teaches exactly these hints: its author was seen at that relay, the relays in its relay list, and the relays it names for others in its tags and its text; none of them is virtual, no event makes the tracker crash, and after any history the hint database holds for each author, relay and kind the newest time learned, and for each event id exactly the relays it was seen at.", "quantifier": "all events, relays, and histories of what a pool sees", "why_tests_cant": "Hints come from hostile tags and texts; the newest time over a history and the absence of virtual relays are statements about every sequence of events.", "anchors": ["sdk/tracker.go", "sdk/utils.go:10-29", "sdk/event_relays.go", "sdk/hints"]}
{"id": "C106", "title": "Profiles are of the person asked for", "statement": "Fetching the profile of a key gives what that key last published: the newest of what the store and the network give, kept for a week; the name shown is never empty; an internet identifier counts as valid only if its server said so within a week.", "quantifier": "all keys, stored events, network answers, clocks, and sequences of calls", "why_tests_cant": "The cache, the time stamps in the key-value store and the answers interact over a sequence of calls; a cache that mixes up two keys needs a special pair of keys.", "anchors": ["sdk/metadata.go", "sdk/loader_helpers.go:12-18", "sdk/cache/memory/cache.go"]}
{"id": "C107", "title": "Fetching one event by its code", "statement": "The input is read as the code or id it is. The event returned is the one the pointer names: from the local store if it has it, else the newest that the relays of the pointer, of its author and the general ones give; each relay that had it is returned, those of the pointer and its author first; general relays are asked only as a last resort.", "quantifier": "all pointers, inputs, answers of the store and of the relays, and sorting algorithms", "why_tests_cant": "Which relay answers first and with what cannot be enumerated; the comparison given to the sort is inconsistent on equal elements.", "anchors": ["sdk/specific_event.go", "sdk/helpers.go:12-20"]}
{"id": "C108", "title": "Keys: generation, agreement and signatures on the curve", "statement": "GeneratePrivateKey gives 64 lowercase hex digits of a number from 1 to n-1, each number coming from q or q+1 of the 2^320 random strings for one q. Two parties with keys in range compute the same shared secret and conversation key from each other's public key. A signature made with a key checks with its public key, and its second half cannot be changed. GenerateConversationKey refuses exactly the keys out of range. Two keys have the same public key only if their sum is n.", "quantifier": "all keys, random bytes, hashes and nonces, and every curve that is a group of order n with the usual coordinates", "why_tests_cant": "The key space has 2^256 elements; uniformity and agreement are facts about all of them, and parity cases of both points combine.", "anchors": ["keys.go:14-39", "nip44/nip44.go:156-172", "nip44/nip44.go:222-246", "nip04/nip04.go:16-37", "signature.go:17-77"]}
{"id": "C109", "title": "Blind signatures of ecash", "statement": "A proof built from an honest mint's answer carries the mint's signature of the secret and does not depend on the blinding. Whatever the mint answers, a proof whose DLEQ the wallet accepted is accepted by the receiver of a nutzap. A DLEQ cannot pass for a signature that is not the mint's except for one value of the hash per pair of commitments. The mint's view is consistent with every secret, each with exactly one blinding.", "quantifier": "all secrets, blindings, mint keys and nonces, answers of the mint, hash functions, and every curve of prime order", "why_tests_cant": "Soundness and blindness are statements about all scalars and points; a test sees one run in which everything matches.", "anchors": ["nip60/helpers.go:41-83", "nip60/helpers.go:116-185", "nip61/verify.go:41-141"]}
{"id": "C110", "title": "The live feed of a set of authors", "statement": "Every event that arrives for an author is passed on once and in order, waits, or was dropped because it is older than the record or than an event already seen; without a record nothing is dropped, and with events oldest first nothing newer than the record is. The channel is closed exactly once, when all goroutines have ended. Under the author's key the store holds every tenth new time, and the next run asks from there.", "quantifier": "all lists of authors, stores, relays, arrivals and interleavings of the main loop, the relays, the goroutines and the consumer, without bound", "why_tests_cant": "The filter shares its since with a variable that another goroutine moves: what is lost depends on the order of arrival and handling, of which there are unboundedly many.", "anchors": ["sdk/feeds.go:19-94", "relay.go:236-290", "subscription.go:117-127", "pool.go:414-570"]}
{"id": "C111", "title": "Batched queries, the query for one event, and shared options", "statement": "A batched query delivers each id at most once whatever filters and relays it came through, only ids some relay sent as a matching signed event, closes its channel once and last when every goroutine has returned, and leaves no goroutine behind after a cancel even if nobody receives. Every id all of whose copies were good and in time is delivered. The query for one event returns the one event ever sent to it; it returns nothing only if nothing was sent and every relay is done; afterwards no goroutine is left. A call with options sees its own options followed by the added one; a second call with the same slice leaves the first alone exactly when the slice had no room.", "quantifier": "all numbers of filters and relays, all messages, EOSEs, failures and cancels, and all interleavings of the two layers of goroutines with the receiver; all arrays and slices", "why_tests_cant": "Two goroutines per filter, the relays and the receiver interleave without bound, and aliasing of options shows only when the slice happens to have spare room.", "anchors": ["pool.go:590-688", "pool.go:731-787", "pool.go:493", "pool.go:331"]}
{"id": "C112", "title": "One connection per relay in a pool", "statement": "However many callers ask a pool for relays at once: no two of them dial the same relay at the same time, there is never more than one live connection to a relay, and nobody dials a relay that has one. A call returns a connection to the relay it asked for that was alive at that moment, and callers share it. No set of calls deadlocks. After the pool is closed no connection is made.", "quantifier": "all numbers of callers, all urls, normalizations and hash functions, all results of dials and drops of connections, and all interleavings", "why_tests_cant": "Lock striping by a hash with a random seed and unboundedly many interleavings of callers with dials and drops; a test sees one seed and one schedule.", "anchors": ["pool.go:158-207", "pool.go:789-792", "helpers.go:13-28", "relay.go:52-71"]}
{"id": "C113", "title": "Normal form of http urls", "statement": "For a plain url (http or https, a name, a port, a path, any keys and values, escaped) NormalizeHTTPURL takes off spaces around it, the default port and one slash at the end, and orders the query by key, keeping the order of the values of a key; without a scheme it takes https. Two such urls whose keys and values need no escape get the same form exactly when they differ only in these things, and applying it twice is applying it once exactly when the path does not end in two slashes with no query.", "quantifier": "all plain urls: names, ports, paths and lists of keys and values of any length; keys and values any bytes", "why_tests_cant": "The set of urls is infinite and the failures need values that hold reserved characters.", "anchors": ["normalize.go:64-105"]}
{"id": "C114", "title": "The settings of an ecash wallet and its token events", "statement": "AddMint puts the normal form of every url into the list, once and behind the others; no added mint shares a keyset with another; it works exactly when all mints answer and the keysets are apart. RemoveMint takes away one entry per url and nothing else, and undoes AddMint whatever the spelling. SetPrivateKey accepts exactly 32 bytes in hex. A call that works publishes what the wallet holds and other wallets read just that; one that fails publishes nothing and changes nothing. Token events read back as the same token. Signatures on locked proofs and outputs check with the wallet's public key.", "quantifier": "all wallets, sequences of calls, urls, answers of mints, codecs and curves that obey their laws", "why_tests_cant": "Histories of calls, all spellings of urls, all answers of mints.", "anchors": ["nip60/wallet.go: AddMint, RemoveMint, SetPrivateKey", "nip60/token.go", "nip60/helpers.go: signInput, signOutput", "nip60/client/client.go: GetActiveKeyset, GetKeysetById, parse"]}
{"id": "C115", "title": "Signatures in the build with libsecp256k1", "statement": "CheckSignature of the build with libsecp256k1 accepts every event that the default build accepts; on keys of 64 characters and signatures of 128 both accept the same events, provided the hash in a signature is below the order. What else it accepts is exactly keys and signatures whose missing bytes at the end are zero. Sign gives an event that checks in both builds, succeeds for every key in range, refuses exactly the keys out of range, and leaves the event unchanged when it refuses.", "quantifier": "all events, keys and signatures of any length, all curves that satisfy the laws, all hash and nonce functions, any memory after the key", "why_tests_cant": "Two implementations are compared on all inputs; the differences are at lengths that no signed event of a test has.", "anchors": ["signature_libsecp256k1.go:37-95", "signature.go:17-77", "libsecp256k1/src/modules/schnorrsig/main_impl.h:117-265", "libsecp256k1/src/modules/extrakeys/main_impl.h:22-42"]}
{"id": "C116", "title": "Connecting to a remote signer", "statement": "ConnectBunker reads from a bunker url the key, every relay in order and the secret, however names and values are escaped, and refuses other schemes and hosts that are not keys. A url accepted by IsValidBunkerURL is not refused by ConnectBunker. With the url of a signer, the first request carries the secret to that signer and its answer is read back. An internet identifier leads to the key and the list of relays that its server tells. Requests are encrypted with a key that only the two parties can compute.", "quantifier": "all texts, keys, lists of parameters in any spelling of any bytes, servers, secrets, all interleavings of calls, all lawful cryptography", "why_tests_cant": "Parsers are inverted on all inputs; the failures are at keys with an odd number of digits, at names that only end in \"relay\", and in calls that wait for ever.", "anchors": ["nip46/client.go:39-156", "nip46/client.go:232-257", "nip46/nip46.go:41-56", "nip46/wellknownnostrjson.go:10-26"]}
{"id": "C117", "title": "Rotating relays, searching for people and limits of batched queries", "statement": "RelayStream.Next gives the relays in turn, each once in as many calls as there are relays, and never crashes, also when it is called at the same time. SearchUsers gives one profile for each profile event found. PerQueryLimitInBatch gives no query more than the total, and all of them together at least the total.", "quantifier": "all lists of relays, counters, numbers of calls and interleavings; all answers of relays; all limits and numbers of queries whose product fits an int", "why_tests_cant": "The counter starts at a random value and fails at its end; races depend on interleavings; the limit is compared with a real power for all pairs of numbers.", "anchors": ["sdk/system.go:57-77", "sdk/search.go:9-24", "sdk/utils.go:33-46"]}
{"id": "C118", "title": "Who is in a web of trust", "statement": "Loading the web of trust collects everybody the user follows and everybody on the lists of those that could be loaded, each exactly as often as they are there, with at most 45 lists loading at the same time, and always ends, without sending on a closed channel. The filter made of the collected keys holds every one of them, its number of items is that of the different short ids, the order of arrival does not matter, and an empty one holds nobody.", "quantifier": "all follow lists, all answers and timeouts of the nested loads, all interleavings of the goroutines; all lists of keys; every filter that holds the numbers it was made of", "why_tests_cant": "The goroutines and the order of arrival vary from run to run; a send after close or a lost key shows only in some interleavings.", "anchors": ["sdk/wot.go:102-140", "sdk/wot.go:142-155", "sdk/wot.go:157-167"]}
{"id": "C119", "title": "Asking one relay gives everything it had stored, and ends", "statement": "Relay.QuerySync gives exactly the events that were delivered on the subscription, each reception once. When the relay answers and the caller and the connection stay, it returns only after the relay's EOSE, and everything the relay sent between the request and its EOSE is in the result; the relay is then sent exactly one CLOSE. Whenever the EOSE, a CLOSED, the end of the context or of the connection has happened and the program has nothing left to do, QuerySync has returned; the program's own steps always run out. Nothing crashes when the request was written before the subscription was ended.", "quantifier": "all interleavings of reader, event goroutines, the watcher of QueryEvents, start(), handleClosed and the closing connection; any number of events, EOSE and CLOSED messages; any moment for the contexts to end", "why_tests_cant": "Which case of the select is taken, and whether a stored event is delivered before the signal, depends on scheduling; a lost event shows in few of unboundedly many interleavings.", "anchors": ["relay.go:411-423", "relay.go:474-497", "relay.go:499-520", "subscription.go:81-166"]}
{"id": "C120", "title": "Loading a batch of lists ends with the network or with the last caller", "statement": "batchLoadReplaceableEvents and batchLoadAddressableEvents ask each relay once, for exactly the keys that have it among their relays, after every key was looked up, in whatever order the goroutines finish. They return only when the pool's channel was closed or when every caller has given up: one caller's leaving does not end the others' load. The result holds for each key (and identifier) the newest of all that was received and nothing else. The first of the two has returned whenever the channel was closed or everybody gave up and nothing is left to do, and afterwards no goroutine of it stays and the shared context is cancelled.", "quantifier": "all batches of any size, all answers about relays, all interleavings of the goroutines, of the callers' contexts and of the channel, any number of events", "why_tests_cant": "The counter of waiting callers is shared by as many goroutines as there are keys; the lost decrement needs two of them to read it at the same time.", "anchors": ["sdk/replaceable_loader.go:63-142", "sdk/addressable_loader.go:43-134"]}
{"id": "C121", "title": "A System is made of what it was given, or of the documented defaults", "statement": "After NewSystem each of the seven relay lists is the last one given for that use or the documented default; the key-value store, the hints and the follow list cache are the last ones given or the default; the caches for profiles and relay lists and the event store are never nil. Of the key-value stores all but the one in use have been closed, in order; if no store is given twice the one in use is open, and after Close every one is closed exactly once and the pool is closed. Only the event store made by NewSystem itself is initialised.", "quantifier": "all sequences of modifiers of any length, with nil and repeated arguments", "why_tests_cant": "Modifiers can be repeated and mixed without limit; tests use one or two.", "anchors": ["sdk/system.go:27-57", "sdk/system.go:89-149", "sdk/system.go:152-253"]}
{"id": "C122", "title": "The lists of a System do not mix, and the network is asked again only when due", "statement": "For any calls of the eleven list and set fetchers, by any number of goroutines at once, each call returns a list of its own kind, made from an event of that kind with the reader of that kind, and never another list of the same author; of the author asked for, if no two keys asked for share their last four bytes. The loader each fetcher uses loads its kind and no two share a cache. Once a call has ended the next equal one is answered from the cache until the cache drops it. While something is stored the network is not asked again for a day (follows) or three (the others) after a recorded attempt, whatever else is fetched; the record of one list is moved by no other. What is put into the local store was asked for. A waiting call can always end, with a result but for stored sets and a silent network. Alone, a call does what C82 says.", "quantifier": "all interleavings of any number of calls of all fetchers, all answers of store and network, all moments at which caches drop entries", "why_tests_cant": "The calls of several goroutines interleave, caches drop entries at any time, and the tables of kinds, loaders and caches are only wrong for one list at a time.", "anchors": ["sdk/list.go:30-152", "sdk/set.go:22-115", "sdk/lists_profile.go:20-45", "sdk/lists_event.go:16-32", "sdk/lists_relay.go:22-52", "sdk/lists_topics.go:14-30", "sdk/replaceable_loader.go:16-61", "sdk/addressable_loader.go:14-41"]}
{"id": "C123", "title": "What is read about a repository is about that repository, and private messages go where their reader says", "statement": "Given a store that answers a query with exactly the stored events it is about: FetchState gives a stored state event with the repository's name as its \"d\" tag, read as it stands, and none only if none is stored; GetPatchesSync gives exactly the stored patches whose \"a\" tag names this repository of this owner, each said to be for that repository if it names no other. The state given is the owner's. GetDMRelays gives the first three relays of a list this person published, the newest one. A pointer to something outside survives the trip through a tag.", "quantifier": "all announcements, all stores and their contents, all keys, all tags", "why_tests_cant": "What comes back depends on what strangers have published and in which order a store gives it.", "anchors": ["nip34/repository.go:101-129", "nip34/patch.go:19-59", "nip34/state.go:18-49", "nip17/nip17.go:12-32", "nip73/pointer.go:13-23"]}
{"id": "C124", "title": "Requests to a mint reach the endpoint they are for, with the whole body", "statement": "Every call of the mint client goes to the mint's own host and path with the endpoint of the protocol behind it, GET for questions and POST for requests with a body, as long as the mint's address has no query and the id has only path characters. At one mint no two different questions share method and address. What the mint reads of a posted body is always a beginning of the JSON and its newline, and all of it once it sees the end. When the call has returned the goroutine that writes the body ends by itself within three steps.", "quantifier": "all mint addresses, ids, bodies, read sizes and interleavings of the two goroutines, early answers and failures", "why_tests_cant": "The pipe between the two goroutines can be cut at every byte by an early answer or a failure; a test sees one interleaving and cannot see a goroutine that never ends.", "anchors": ["nip60/client/client.go:21-154", "nip60/client/client.go:157-190"]}
{"id": "C125", "title": "An opened wallet holds exactly the owner's stored tokens that nothing deleted", "statement": "loadWalletFromPool asks for the owner's wallet, token and (if wanted) history events and for the owner's deletions about tokens, and for nothing else. If all of these come, in any order and any number of times, and both queries end, the wallet holds each readable stored token of the owner once, except those that such a deletion names and those another token says it replaces. It is not ready before both queries have ended. Every deletion by the owner of a token counts.", "quantifier": "all keys, all stored events, all orders and repetitions of arrival, all token contents", "why_tests_cant": "The tokens that remain depend on the order in which tokens, replacements and deletions come from several relays.", "anchors": ["nip60/wallet.go:52-111", "nip60/wallet.go:113-226"]}
{"id": "C126", "title": "Wiki names are canonical and seed words give the key of NIP-06", "statement": "NormalizeIdentifier drops blanks at the ends and turns letters to lower case, keeps digits and makes a hyphen of everything else; the name of a name is itself, and names that differ only in case are one. PrivateKeyFromSeed gives, in hex, the key at m/44'/1237'/0'/0/0 below the seed, and fails exactly if a step fails.", "quantifier": "all names; all seeds and all BIP-32 functions", "why_tests_cant": "Canonicity is a claim about all pairs of names; a path is wrong in the same way on both sides of a round trip test.", "anchors": ["nip54/nip54.go:11-26", "nip06/nip06.go:28-51"]}
{"id": "C127", "title": "What passes as a relay address is one", "statement": "IsValidRelayURL accepts an ordinary address exactly if its scheme is ws or wss in any case; whatever it accepts begins with one of these and has a host. Tag.Relay gives the third item of e and p tags in normal form, Tags.All the tags GetAll selects with their places until the caller stops, and Tags.Scan reports text that is no list of tags.", "quantifier": "all texts, all tags, all callers", "why_tests_cant": "The texts url.Parse accepts are many and strange; a test tries a few.", "anchors": ["utils.go:11-20", "tags.go:46-52", "tags.go:98-109", "tags.go:227-242"]}
{"id": "C128", "title": "What a client gets from a remote signer", "statement": "A client that knows a signer's public key and asks it, over the wire, for its public key, a ping, a signature, or NIP-44 or NIP-04 encryption or decryption with a third person gets exactly what the signer's secret key would give locally: the key itself, an event signed by it with the fields asked for, a text the third person can decrypt, or the text the third person encrypted. A refusal is an error at the client. The public key is asked for until there is an answer and then never again. Three texts never come back and leave the call waiting: a decrypted text that is \"auth_url\", an empty NIP-04 text, and the encryption of a text longer than 40960 bytes.", "quantifier": "for all keys of client, signer and third person, earlier requests to the signer, ids, nonces, texts and events whose messages fit into NIP-44, and all encodings of requests and responses that can be undone", "why_tests_cant": "The texts that never come back are single values or lengths among all texts, and the failure is a wait and no wrong answer; tests would have to try every text with every key.", "anchors": ["nip46/client.go:159-231", "nip46/client.go:106-156", "nip46/static-key-signer.go:84-275", "nip46/bunker_session.go"]}
{"id": "C129", "title": "How many wrong characters of a bech32 text are noticed", "statement": "A decodable bech32 text with one, two or three wrong characters (other than the character 1) among its last 79 is refused, and so is one with one or two wrong characters among its last 192; hence up to three wrong characters in any npub, nsec or note are noticed. In a text of any length two wrong characters are noticed unless their distance is a multiple of 1023 or they stand 33 and 192 from the end (but for multiples of 1023). Four wrong characters in an npub may give another public key, because the decoder takes two different checksums.", "quantifier": "for all prefixes, all decodable texts of any length, all wrong characters and all places, and all 32-byte keys", "why_tests_cant": "An npub alone has about 30 million texts with two wrong characters and 10^10 with three, and there are 2^256 npubs; the undetected pairs in long texts are two places among thousands.", "anchors": ["nip19/nip19.go:13-33", "nip19/nip19.go:134-174"]}
{"id": "C130", "title": "The SQL behind the relay hints", "statement": "The texts built for SQLite and for PostgreSQL ask for each argument once and in the order in which it is passed, for every kind of hint and any number of placeholders. Opening a database creates or changes its layout once: any number of rows of the first version keep their three other times, opening again changes nothing, a failed attempt leaves all as it was, and a database that can be used has a column for every kind of hint.", "quantifier": "for all numbers of placeholders and starts, all kinds of hints, both databases, all contents of the version table and the hints table and any number of rows", "why_tests_cant": "The numbering has no bound and the tables may hold any rows and any version; tests open one fresh SQLite file and seldom an old or a PostgreSQL one.", "anchors": ["sdk/hints/sqlh/db.go:24-160", "sdk/hints/sqlh/interop.go:11-48", "sdk/hints/sqlh/keys.go:3-38"]}
