# Formal model of go-nostr: design

## Method

The Go source in /repo is read as text. Each Rocq file `XModel.v` holds total, computable Gallina functions that
follow one or a few Go functions; every definition cites the file and lines it models. `XProofs.v` holds lemmas.
`Props_X.v` holds the property theorems (and the concrete cases that meet their hypotheses), each closed from a
lemma, with `Print Assumptions` below. Specifications used in the theorem statements are written separately from the model (own
definitions, usually as predicates over lists or relations), so that a theorem is not a restatement of the code.

* Go strings and byte slices are `list ascii` (`str`), all 256 byte values. Integers are `Z`; where Go wraps
  (uint8, uint32, uint64, int) the model wraps explicitly with `mod`.
* Panics are an explicit outcome (`Panic`), errors a separate outcome (`Err`).
* Goroutines, channels, mutexes and atomics become a state machine whose steps are the atomic actions of the code;
  theorems quantify over all step sequences from the initial state.
* External code (SHA-256, secp256k1, ChaCha20, HMAC, AES, scrypt, the network, clocks) becomes a function argument
  (Section variable, generalised at section end). The laws assumed of it are hypotheses visible in the theorem.
* When the full property is false of the code, a theorem `..._refuted` exhibits a concrete input, and the part that holds is
  proved under an explicit hypothesis (`..._partial`).

## Trusted base

1. Coq 8.16.1's kernel (and coqchk).
2. What `Print Assumptions` prints under each theorem: the aim is "Closed under the global context" everywhere.
3. The reading of the Go code recorded in the models, including the parts of the Go standard library and third-party
   packages that are re-modelled (bech32 of btcutil, the schnorr package of btcec after BIP-340, easyjson's jlexer and jwriter, gjson, jsoniter's string writer, encoding/hex, strconv, slices.BinarySearch,
   sort) and the Go memory model reduced to atomic steps.

Not modelled: goroutine fairness and timing beyond what a step relation expresses, memory exhaustion, the
websocket library, TLS, the databases behind badger/lmdb/sql (their operations are modelled as maps), log output.

## Plan per property

| id | model | proof |
|----|-------|-------|
| C01 | EventModel: escape_string, serialize | prefix-free parse of the serialization by induction on tags |
| C02 | JSON grammar as an inductive relation (own spec) | induction: the serialization derives the array value |
| C03 | check_id with abstract 32-byte hash | hex nibble case analysis over all bytes |
| C04 | sign / check_signature with abstract schnorr | computation from the abstract law |
| C05 | four kind predicates over Z | lia |
| C06 | compare functions over (created_at, id) | order laws of lexicographic bytes order |
| C07-C09 | filter_matches | equivalence with a declarative predicate; monotonicity from it |
| C10 | filter_equal, similar | refutation (limit ignored, asymmetric `similar`) + partial positive |
| C11 | heap model with addresses for slices/maps/pointers | freshness of every address returned by clone |
| C12 | theoretical_limit | pigeonhole on keys; refutation for two d tags |
| C13-C16 | tag functions | induction; refutations for prefix semantics and Clone |
| C17-C19 | easyjson writer and a lexer/decoder for the token grammar used | round trip by induction; refutations for omission rules |
| C20 | textual scanners | refutation by content that mimics fields; partial positive on encoder output |
| C21-C22 | bech32 encode/decode, polymod, convert bits | linearity of polymod over GF(32); bit-list induction |
| C23-C26 | TLV codec over bech32 | induction on relays; panics as outcomes; refutations |
| C27 | pointer functions | string splitting lemmas |
| C28-C31 | padding and framing with abstract primitives | arithmetic on powers of two; case analysis |
| C32 | 91-byte layout | computation |
| C33 | leading zeros on hex | equality with bit-list specification |
| C34-C35 | registers as lists, max merge | join-semilattice laws; permutation invariance |
| C36-C41 | negentropy codec, storage, reconcile | varint induction; protocol simulation with termination measure |
| C42 | negentropy envelopes | round trip, refutation for NEG-ERR |
| C43-C49 | subscription/relay transition systems | inductive invariants over all schedules |
| C50-C54 | pool transition systems | inductive invariants; refutations by concrete schedules |
| C55 | paginator against an abstract store | induction over pages |
| C56 | multistore | permutation and sortedness |
| C57 | dataloader transition system | invariants |
| C58-C60 | kv store, hints, relay list codec | refinement to maps; induction |
| C61-C64 | loaders, WoT, list parsing, appendUnique | folds; schedule refutation |
| C65-C68 | gift wrap, remote signer, keyers | abstract crypto; histories; refutations |
| C69-C71 | wallet arithmetic and token list | arithmetic with wrap; permutations; refutation |
| C72-C78 | group state, note blocks, repositories, structured tags, normalisation, auth, kind lists | folds and round trips; refutations |

Progress and findings are recorded below as the work proceeds.

## Modelled and not modelled


Per Go file: the functions whose lines a definition in a model cites (wholly or in part; the comment says what is left out), and the functions
that no definition models. Test files and the two example programs are left out. Functions that only name a label, build a struct of options or
call another function with fixed arguments are listed as not modelled.

| file | modelled | not modelled |
|---|---|---|
| connection.go | - | NewConnection, Connection.WriteMessage, Connection.ReadMessage, Connection.Close, Connection.Ping |
| connection_options.go | - | getConnectionOptions |
| connection_options_js.go | - | getConnectionOptions |
| envelopes.go | EventEnvelope.FromJSON, EventEnvelope.MarshalJSON, ReqEnvelope.Label, ReqEnvelope.FromJSON, ReqEnvelope.MarshalJSON, CountEnvelope.Label, CountEnvelope.String, CountEnvelope.FromJSON, CountEnvelope.MarshalJSON, NoticeEnvelope.Label, NoticeEnvelope.String, NoticeEnvelope.FromJSON, NoticeEnvelope.MarshalJSON, EOSEEnvelope.String, EOSEEnvelope.FromJSON, EOSEEnvelope.MarshalJSON, CloseEnvelope.String, CloseEnvelope.FromJSON, CloseEnvelope.MarshalJSON, ClosedEnvelope.Label, ClosedEnvelope.String, ClosedEnvelope.FromJSON, ClosedEnvelope.MarshalJSON, OKEnvelope.Label, OKEnvelope.String, OKEnvelope.FromJSON, OKEnvelope.MarshalJSON, AuthEnvelope.Label, AuthEnvelope.String, AuthEnvelope.FromJSON, AuthEnvelope.MarshalJSON | ParseMessage, EventEnvelope.Label, EOSEEnvelope.Label, CloseEnvelope.Label |
| envelopes_default.go | messageParser.ParseMessage | NewMessageParser |
| envelopes_sonic.go | sonicVisitor.OnArrayBegin, sonicVisitor.OnArrayEnd, sonicVisitor.OnObjectBegin, sonicVisitor.OnObjectKey, sonicVisitor.OnObjectEnd, sonicVisitor.OnString, sonicVisitor.OnInt64, sonicVisitor.OnBool, sonicVisitor.OnNull, sonicVisitor.OnFloat64, NewMessageParser, sonicMessageParser.doneWithFilterSlice, sonicMessageParser.doneWithTagSlice, sonicMessageParser.doneWithStringSlice, sonicMessageParser.doneWithIntSlice, sonicMessageParser.ParseMessage | sonicVisitorPosition.String |
| event.go | Event.GetID, Event.CheckID, Event.Serialize, serializeEventInto | Event.String |
| event_easyjson.go | easyjsonF642ad3eDecodeGithubComNbdWtfGoNostr, easyjsonF642ad3eEncodeGithubComNbdWtfGoNostr, Event.UnmarshalJSON | Event.MarshalJSON, Event.MarshalEasyJSON, Event.UnmarshalEasyJSON |
| filter.go | Filters.Match, Filters.MatchIgnoringTimestampConstraints, Filter.Matches, Filter.MatchesIgnoringTimestampConstraints, FilterEqual, Filter.Clone, GetTheoreticalLimit | Filters.String, Filter.String |
| filter_easyjson.go | easyjson4d398eaaDecodeGithubComNbdWtfGoNostr, easyjson4d398eaaEncodeGithubComNbdWtfGoNostr, Filter.UnmarshalJSON | Filter.MarshalJSON, Filter.MarshalEasyJSON, Filter.UnmarshalEasyJSON |
| helpers.go | memhash, namedLock, similar, escapeString, arePointerValuesEqual, subIdToSerial, isLowerHex, extractSubID, extractEventID, extractEventPubKey, extractDTag, extractTimestamp | - |
| interface.go | MultiStore.Publish, MultiStore.QueryEvents, MultiStore.QuerySync | - |
| keyer/bunker.go | BunkerSigner.Encrypt, BunkerSigner.Decrypt | NewBunkerSignerFromBunkerClient, BunkerSigner.GetPublicKey, BunkerSigner.SignEvent |
| keyer/encrypted.go | EncryptedKeySigner.GetPublicKey, EncryptedKeySigner.SignEvent, EncryptedKeySigner.Encrypt, EncryptedKeySigner.Decrypt | - |
| keyer/lib.go | New | - |
| keyer/manual.go | - | ManualSigner.SignEvent, ManualSigner.GetPublicKey, ManualSigner.Encrypt, ManualSigner.Decrypt |
| keyer/plain.go | NewPlainKeySigner, KeySigner.GetPublicKey, KeySigner.Encrypt, KeySigner.Decrypt | KeySigner.SignEvent |
| keyer/readonly.go | - | NewReadOnlyUser, ReadOnlyUser.GetPublicKey, NewReadOnlySigner, ReadOnlySigner.SignEvent, ReadOnlySigner.GetPublicKey |
| keys.go | GeneratePrivateKey, GetPublicKey, IsValidPublicKey | - |
| kinds.go | IsRegularKind, IsReplaceableKind, IsEphemeralKind, IsAddressableKind | - |
| log_debug.go | - | debugLogf, stringify |
| log_normal.go | - | debugLogf |
| nip04/nip04.go | ComputeSharedSecret, Encrypt, Decrypt | - |
| nip05/nip05.go | IsValidIdentifier, ParseIdentifier, QueryIdentifier, Fetch, NormalizeIdentifier, IdentifierToURL | - |
| nip06/nip06.go | PrivateKeyFromSeed | GenerateSeedWords, SeedFromWords, ValidateWords |
| nip10/nip10.go | GetThreadRoot, GetImmediateParent | - |
| nip11/fetch.go | Fetch | - |
| nip11/types.go | RelayInformationDocument.AddSupportedNIP, RelayInformationDocument.AddSupportedNIPs | - |
| nip13/nip13.go | CommittedDifficulty, Difficulty, difficultyBytes, Check, DoWork | - |
| nip14/subject.go | GetSubject | - |
| nip17/nip17.go | GetDMRelays, PublishMessage, PrepareMessage, ListenForMessages | - |
| nip19/helpers.go | readTLVEntry, writeTLVEntry | - |
| nip19/nip19.go | Decode, EncodePrivateKey, EncodePublicKey, EncodeNote, EncodeProfile, EncodeEvent, EncodeEntity | - |
| nip19/pointer.go | EncodePointer, ToPointer | - |
| nip19/utils.go | - | NeventFromRelayEvent |
| nip22/nip22.go | GetThreadRoot, GetImmediateParent | - |
| nip23/markdown.go | - | MarkdownToHTML, sanitizeXSS |
| nip27/blocks.go | Parse | - |
| nip27/references.go | ParseReferences | - |
| nip29/group.go | GroupAddress.String, ParseGroupAddress, NewGroup, NewGroupFromMetadataEvent, Group.ToMetadataEvent, Group.ToAdminsEvent, Group.ToMembersEvent, Group.ToRolesEvent, Group.MergeInMetadataEvent, Group.MergeInAdminsEvent, Group.MergeInMembersEvent | GroupAddress.IsValid, GroupAddress.Equals, Group.String |
| nip29/nip29.go | KindRange.Includes | - |
| nip29/utils.go | Group.GetRoleByName | - |
| nip31/nip31.go | GetAlt | - |
| nip34/patch.go | ParsePatch | - |
| nip34/repository.go | ParseRepository, Repository.ToEvent, Repository.FetchState, Repository.GetPatchesSync | - |
| nip34/state.go | ParseRepositoryState, RepositoryState.ToEvent | - |
| nip40/nip40.go | GetExpiration | - |
| nip42/nip42.go | CreateUnsignedAuthEvent, parseURL, ValidateAuthEvent | - |
| nip44/nip44.go | Encrypt, Decrypt, GenerateConversationKey, chacha, sha256Hmac, messageKeys, calcPadding, computeSharedSecret | WithCustomNonce |
| nip45/hll_event.go | HyperLogLogEventPubkeyOffsetsAndReferencesForEvent | - |
| nip45/hll_filter.go | HyperLogLogEventPubkeyOffsetForFilter | - |
| nip45/hyperloglog/helpers.go | clz56, countZeros | linearCounting |
| nip45/hyperloglog/hll.go | New, NewWithRegisters, HyperLogLog.MergeRegisters, HyperLogLog.Add, HyperLogLog.AddBytes, HyperLogLog.Merge, HyperLogLog.Count | HyperLogLog.GetRegisters, HyperLogLog.SetRegisters, HyperLogLog.Clear, HyperLogLog.calculateEstimate |
| nip46/bunker_session.go | Session.ParseRequest, Session.MakeResponse | - |
| nip46/client.go | ConnectBunker, NewBunker, BunkerClient.Ping, BunkerClient.GetPublicKey, BunkerClient.SignEvent, BunkerClient.NIP44Encrypt, BunkerClient.NIP44Decrypt, BunkerClient.NIP04Encrypt, BunkerClient.NIP04Decrypt, BunkerClient.RPC | - |
| nip46/dynamic-signer.go | DynamicSigner.GetSession, DynamicSigner.setSession, DynamicSigner.HandleRequest | NewDynamicSigner |
| nip46/nip46.go | Request.String, Response.String, IsValidBunkerURL | - |
| nip46/static-key-signer.go | StaticKeySigner.GetSession, StaticKeySigner.getOrCreateSession, StaticKeySigner.HandleRequest | NewStaticKeySigner |
| nip46/wellknownnostrjson.go | queryWellKnownNostrJson | - |
| nip49/nip49.go | Encrypt, EncryptBytes, Decrypt, DecryptToBytes | getKey |
| nip52/calendar_event.go | ParseCalendarEvent, CalendarEvent.ToHashtags | - |
| nip53/nip53.go | ParseLiveEvent, LiveEvent.GetHost, LiveEvent.ToHashtags | - |
| nip54/nip54.go | NormalizeIdentifier | - |
| nip59/nip59.go | GiftWrap, GiftUnwrap | - |
| nip60/client/client.go | GetMintInfo, GetActiveKeyset, GetAllKeysets, GetKeysetById, PostMintQuoteBolt11, GetMintQuoteState, PostMintBolt11, PostSwap, PostMeltQuoteBolt11, GetMeltQuoteState, PostMeltBolt11, PostCheckProofState, PostRestore, httpPost, parse | httpGet |
| nip60/helpers.go | calculateFee, createBlindedMessages, signInput, signOutput, constructProofs, unblindSignature, ParseKeysetKeys, GetSatoshisAmountFromBolt11 | - |
| nip60/history.go | HistoryEntry.toEvent, HistoryEntry.parse | - |
| nip60/lightning-swap.go | lightningMeltMint, redeemMinted | - |
| nip60/pay.go | Wallet.PayBolt11 | - |
| nip60/receive.go | Wallet.Receive | WithMintDestination, WithNutzap |
| nip60/send-external.go | Wallet.SendExternal | - |
| nip60/send.go | WithP2PK, Wallet.Send, Wallet.saveChangeAndDeleteUsedTokens, Wallet.getProofsForSending | WithRefundable, WithMint |
| nip60/swap.go | Wallet.swapProofs, splitIntoPrincipalAndChange | - |
| nip60/token.go | Token.ID, Token.toEvent, Token.parse | - |
| nip60/utils.go | - | GetProofsAndMint, MakeTokenString |
| nip60/wallet.go | LoadWallet, LoadWalletWithHistory, loadWalletFromPool, loadWallet, Wallet.removeDeletedToken, Wallet.Balance, Wallet.AddMint, Wallet.RemoveMint, Wallet.SetPrivateKey, Wallet.toEvent, Wallet.parse | Wallet.Close |
| nip61/info.go | Info.ToEvent, Info.ParseEvent | - |
| nip61/nip61.go | SendNutzap, getEligibleTokensWeHave | - |
| nip61/verify.go | VerifyNutzap, verifyProofDLEQ, VerifyBlindSignatureDLEQ, parseDLEQ | - |
| nip70/nip70.go | IsProtected, HasEmbeddedProtected | - |
| nip73/pointer.go | ExternalPointerFromTag, ExternalPointer.MatchesEvent, ExternalPointer.AsTagReference, ExternalPointer.AsFilter, ExternalPointer.AsTag | - |
| nip77/envelopes.go | ParseNegMessage, OpenEnvelope.Label, OpenEnvelope.String, OpenEnvelope.FromJSON, OpenEnvelope.MarshalJSON, MessageEnvelope.Label, MessageEnvelope.String, MessageEnvelope.FromJSON, MessageEnvelope.MarshalJSON, CloseEnvelope.FromJSON, CloseEnvelope.MarshalJSON, ErrorEnvelope.Label, ErrorEnvelope.String, ErrorEnvelope.FromJSON, ErrorEnvelope.MarshalJSON | CloseEnvelope.Label, CloseEnvelope.String |
| nip77/idlistpool.go | idlistpool.grab, idlistpool.giveback | newidlistpool |
| nip77/idsonly.go | FetchIDsOnly | - |
| nip77/negentropy/encoding.go | Negentropy.readTimestamp, Negentropy.readBound, Negentropy.writeTimestamp, Negentropy.writeBound, getMinimalBound, readVarInt, writeVarInt, EncodeVarInt | - |
| nip77/negentropy/hex.go | StringHexReader.ReadHexBytes, StringHexReader.ReadHexByte, StringHexReader.ReadString, StringHexWriter.Hex, StringHexWriter.Reset, StringHexWriter.WriteHex, StringHexWriter.WriteByte, StringHexWriter.WriteBytes | NewStringHexReader, StringHexReader.Len, NewStringHexWriter, StringHexWriter.Len |
| nip77/negentropy/negentropy.go | New, Negentropy.String, Negentropy.Start, Negentropy.Reconcile, Negentropy.reconcileAux, Negentropy.SplitRange | Negentropy.Name |
| nip77/negentropy/storage/accumulator.go | Accumulator.Reset, Accumulator.AddBytes, Accumulator.GetFingerprint | Accumulator.AddAccumulator |
| nip77/negentropy/storage/empty/empty.go | - | Empty.Size, Empty.Range, Empty.FindLowerBound, Empty.GetBound, Empty.Fingerprint |
| nip77/negentropy/storage/vector/vector.go | Vector.Insert, Vector.Seal, Vector.Range, Vector.FindLowerBound, Vector.Fingerprint | New, Vector.Size, Vector.GetBound |
| nip77/negentropy/types.go | ItemCompare | Mode.String, Item.String, Bound.String |
| nip77/nip77.go | NegentropySync | - |
| nip86/methods.go | DecodeRequest, SupportedMethods.MethodName, BanPubKey.MethodName, ListBannedPubKeys.MethodName, AllowPubKey.MethodName, ListAllowedPubKeys.MethodName, ListEventsNeedingModeration.MethodName, AllowEvent.MethodName, BanEvent.MethodName, ListBannedEvents.MethodName, ChangeRelayName.MethodName, ChangeRelayDescription.MethodName, ChangeRelayIcon.MethodName, AllowKind.MethodName, DisallowKind.MethodName, ListAllowedKinds.MethodName, BlockIP.MethodName, UnblockIP.MethodName, ListBlockedIPs.MethodName, ListAllowedEvents.MethodName, ListDisallowedKinds.MethodName, GrantAdmin.MethodName, RevokeAdmin.MethodName, Stats.MethodName | - |
| nip92/imeta.go | IMeta.Get, ParseTags | - |
| nip94/nip94.go | ParseFileMetadata, FileMetadata.IsVideo, FileMetadata.IsImage, FileMetadata.DisplayImage, FileMetadata.ToTags | - |
| nip96/nip96.go | Upload, generateAuthHeader | - |
| nip96/types.go | - | UploadRequest.Validate |
| nipb0/blossom/check.go | Client.Check | - |
| nipb0/blossom/client.go | NewClient | createHTTPClient, Client.GetSigner, Client.GetMediaServer |
| nipb0/blossom/delete.go | Client.Delete | - |
| nipb0/blossom/download.go | Client.Download, Client.DownloadToFile | - |
| nipb0/blossom/http.go | Client.httpCall, Client.authorizationHeader | - |
| nipb0/blossom/list.go | Client.List | - |
| nipb0/blossom/types.go | - | BlobDescriptor.String |
| nipb0/blossom/upload.go | Client.UploadFile | - |
| normalize.go | NormalizeURL, NormalizeHTTPURL, NormalizeOKMessage | - |
| paginator.go | SimplePool.PaginatorWithInterval | - |
| pointers.go | ProfilePointerFromTag, ProfilePointer.MatchesEvent, ProfilePointer.AsTagReference, ProfilePointer.AsFilter, ProfilePointer.AsTag, EventPointerFromTag, EventPointer.MatchesEvent, EventPointer.AsTagReference, EventPointer.AsFilter, EventPointer.AsTag, EntityPointerFromTag, EntityPointer.MatchesEvent, EntityPointer.AsTagReference, EntityPointer.AsFilter, EntityPointer.AsTag | - |
| pool.go | NewSimplePool, WithPenaltyBox, withPenaltyBoxOpt.ApplyPoolOption, SimplePool.EnsureRelay, SimplePool.PublishMany, SimplePool.FetchManyReplaceable, SimplePool.subMany, SimplePool.SubManyEose, SimplePool.subManyEoseNonOverwriteCheckDuplicate, SimplePool.CountMany, SimplePool.QuerySingle, SimplePool.BatchedSubManyEose, SimplePool.Close | RelayEvent.String, WithRelayOptions, withRelayOptionsOpt.ApplyPoolOption, WithAuthHandler.ApplyPoolOption, WithEventMiddleware.ApplyPoolOption, WithDuplicateMiddleware.ApplyPoolOption, WithAuthorKindQueryMiddleware.ApplyPoolOption, SimplePool.SubscribeMany, SimplePool.FetchMany, SimplePool.SubMany, SimplePool.SubscribeManyNotifyEOSE |
| relay.go | NewRelay, Relay.IsConnected, Relay.ConnectWithTLS, Relay.Write, Relay.Publish, Relay.Auth, Relay.publish, Relay.Subscribe, Relay.PrepareSubscription, Relay.QueryEvents, Relay.QuerySync, Relay.Count, Relay.countInternal, Relay.Close, Relay.close | RelayConnect, WithNoticeHandler.ApplyRelayOption, WithCustomHandler.ApplyRelayOption, WithRequestHeader.ApplyRelayOption, Relay.String, Relay.Context, Relay.Connect |
| sdk/addressable_loader.go | System.initializeAddressableDataloaders, System.batchLoadAddressableEvents | System.createAddressableDataloader |
| sdk/cache/memory/cache.go | New32, h32, shortUint64 | RistrettoCache.Get, RistrettoCache.Delete, RistrettoCache.Set, RistrettoCache.SetWithTTL |
| sdk/dataloader/dataloader.go | V].Load, V].newBatcher | NewBatchedLoader |
| sdk/event_relays.go | makeEventRelayKey, encodeRelayList, decodeRelayList, System.trackEventRelay, System.GetEventRelays | - |
| sdk/feeds.go | makePubkeyStreamKey, System.StreamLiveFeed, System.FetchFeedPage | - |
| sdk/helpers.go | appendUnique | - |
| sdk/hints/badgerh/db.go | BadgerHints.Save, BadgerHints.TopN | NewBadgerHints, BadgerHints.Close, BadgerHints.GetDetailedScores, BadgerHints.PrintScores, timestamps.sum |
| sdk/hints/badgerh/keys.go | encodeKey, parseKey, encodeValue, parseValue | - |
| sdk/hints/keys.go | HintKey.BasePoints, HintKey.String | - |
| sdk/hints/lmdbh/db.go | LMDBHints.Save, LMDBHints.TopN | NewLMDBHints, LMDBHints.Close, LMDBHints.PrintScores, LMDBHints.GetDetailedScores, timestamps.sum |
| sdk/hints/lmdbh/keys.go | encodeKey, parseKey, encodeValue, parseValue | - |
| sdk/hints/memoryh/db.go | HintDB.Save, HintDB.TopN, HintDB.GetDetailedScores, RelayEntry.Sum | NewHintDB, HintDB.PrintScores |
| sdk/hints/sqlh/db.go | NewSQLHints, SQLHints.Save, SQLHints.GetDetailedScores, SQLHints.scorePartialQuery | SQLHints.TopN, SQLHints.PrintScores |
| sdk/hints/test/suite.go | - | runTestWith |
| sdk/input.go | InputToProfile, InputToEventPointer | - |
| sdk/kvstore/badger/store.go | Store.Get, Store.Set, Store.Update | NewStore, Store.Delete, Store.Close |
| sdk/kvstore/lmdb/store.go | Store.Get, Store.Update | NewStore, Store.Set, Store.Delete, Store.Close |
| sdk/kvstore/memory/store.go | Store.Get, Store.Set, Store.Delete, Store.Close, Store.Update | NewStore |
| sdk/list.go | fetchGenericList, tryFetchListFromNetwork, parseItemsFromEventTags, getLocalStoreRefreshDaysForKind | - |
| sdk/lists_event.go | System.FetchBookmarkList, System.FetchPinList, parseEventRef | EventRef.Value |
| sdk/lists_profile.go | System.FetchFollowList, System.FetchMuteList, System.FetchFollowSets, parseProfileRef | ProfileRef.Value |
| sdk/lists_relay.go | System.FetchRelayList, System.FetchBlockedRelayList, System.FetchSearchRelayList, System.FetchRelaySets, parseRelayFromKind10002, parseRelayURL | Relay.Value, RelayURL.Value |
| sdk/lists_topics.go | System.FetchTopicList, System.FetchTopicSets, parseTopicString | Topic.Value |
| sdk/loader_helpers.go | makeLastFetchKey, encodeTimestamp, decodeTimestamp | - |
| sdk/metadata.go | ProfileMetadata.Npub, ProfileMetadata.NpubShort, ProfileMetadata.ShortName, ProfileMetadata.NIP05Valid, System.FetchProfileFromInput, System.FetchProfileMetadata, System.tryFetchMetadataFromNetwork, ParseMetadata | ProfileMetadata.Nprofile |
| sdk/note.go | PrepareNoteEvent | - |
| sdk/outbox.go | System.FetchOutboxRelays, System.FetchInboxRelays, System.FetchWriteRelays | - |
| sdk/replaceable_loader.go | System.initializeReplaceableDataloaders, System.batchLoadReplaceableEvents, System.determineRelaysToQuery | System.createReplaceableDataloader |
| sdk/search.go | System.SearchUsers | - |
| sdk/set.go | fetchGenericSets, tryFetchSetsFromNetwork, parseSetsFromEvents | - |
| sdk/specific_event.go | System.FetchSpecificEventFromInput, System.FetchSpecificEvent | - |
| sdk/system.go | NewRelayStream, RelayStream.Next, NewSystem, WithHintsDB, WithRelayListRelays, WithMetadataRelays, WithFollowListRelays, WithFallbackRelays, WithJustIDRelays, WithUserSearchRelays, WithNoteSearchRelays, WithStore, WithRelayListCache, WithFollowListCache, WithMetadataCache, WithKVStore | System.Close |
| sdk/tracker.go | System.TrackQueryAttempts, System.TrackEventHintsAndRelays, System.TrackEventHints, System.trackEventHints, System.TrackEventRelaysD | - |
| sdk/utils.go | IsVirtualRelay, PerQueryLimitInBatch | - |
| sdk/wot.go | PubKeyToShid, System.LoadWoTFilter, System.loadWoT, makeWoTFilter, WotXorFilter.Contains | - |
| signature.go | Event.CheckSignature, Event.Sign | - |
| signature_libsecp256k1.go | Event.CheckSignature, Event.Sign | init |
| subscription.go | Subscription.start, Subscription.dispatchEvent, Subscription.dispatchEose, Subscription.handleClosed, Subscription.unsub, Subscription.Close, Subscription.Fire | WithLabel.IsSubscriptionOption, WithCheckDuplicate.IsSubscriptionOption, WithCheckDuplicateReplaceable.IsSubscriptionOption, Subscription.GetID, Subscription.Unsub, Subscription.Sub |
| tags.go | Tag.StartsWith, Tag.Key, Tag.Value, Tag.Relay, Tags.GetD, Tags.GetFirst, Tags.GetLast, Tags.GetAll, Tags.All, Tags.FilterOut, Tags.FilterOutInPlace, Tags.AppendUnique, Tags.Find, Tags.FindAll, Tags.FindWithValue, Tags.FindLast, Tags.FindLastWithValue, Tags.Clone, Tags.CloneDeep, Tag.Clone, Tags.Scan, Tags.ContainsAny | - |
| timestamp.go | - | Now, Timestamp.Time |
| utils.go | IsValidRelayURL, IsValid32ByteHex, CompareEvent, CompareEventReverse, CompareEventPtr, CompareEventPtrReverse | - |

## Findings

Each line names the theorem that exhibits the behaviour with a concrete input.

* C02 `C02_unescaped_pubkey_refuted`: Serialize writes PubKey raw; a pubkey with a quote byte gives text that is not JSON.
* C10 `C10_equal_but_match_differently_refuted`, `C10_not_symmetric_refuted`: FilterEqual compares lists one-sidedly, so
  [1,1] equals [1,2]. `C10_nil_vs_empty_refuted`: nil and empty lists are equal but match differently.
  `C10_limit_ignored_refuted`: Limit is not compared.
* C12 `C12_theoretical_limit_refuted`: an event with two d tags matches by its second d value but is stored under its
  first, so more events than the theoretical limit can match.
* C14 `C14_empty_prefix_panics_refuted`, C15 `C15_append_empty_panics_refuted`: StartsWith indexes prefix[len-1].
* C15 `C15_append_unique_refuted`: AppendUnique compares by prefix and drops a tag whose value is a prefix of a present one.
* C16 `C16_tag_clone_refuted`, `C16_tags_clone_refuted`: Clone copies into a zero-length slice and returns nothing.
* C17 `C17_unknown_field_refuted`: the event decoder has no default case, so an unknown field makes valid JSON an error and
  some text that is not JSON is accepted. `C17_invalid_utf8_refuted`: bytes that are not UTF-8 are replaced.
* C18 `C18_empty_list_refuted`: an empty (not nil) id list matches nothing but is not written, so the receiver's filter
  matches everything. `C18_limit_zero_refuted`, `C18_raw_tag_name_refuted`: LimitZero lost, tag names not escaped.
* C19 `C19_quote_in_id_refuted`, `C19_empty_req_refuted`, `C19_long_hll_refuted`, `C19_short_hll_refuted`.
* C20 `C20_negative_time_refuted`, `C20_sub_named_pubkey_refuted`, `C20_d_tag_refuted`, `C20_field_order_refuted`,
  `C20_crash_refuted`: the textual scanners of the relay reader differ from the parser or crash.
* C21 `C21_substitute_one_refuted`: replacing a data character by 1 can give another valid code with a longer prefix.
* C24 `C24_long_relay_refuted`, `C24_empty_identifier_refuted`, `C24_kind_wraps_refuted`, `C24_wrong_length_refuted`: the encoders
  accept pointers whose code does not decode to them.
* C25 `C25_naddr_crash_refuted`: an naddr with a kind entry shorter than four bytes crashes Decode.
* C26 `C26_kind_lost_refuted`, `C26_bad_pointer_refuted`.
* C27 `C27_event_tag_refuted`, `C27_short_tag_refuted`, `C27_match_refuted`, `C27_odd_key_refuted` (IsValidPublicKey accepts 65 digits).
* C29 `C29_padding_bytes_unchecked_refuted`, `C29_text_not_canonical_refuted`: NIP-44 payloads are malleable by whoever holds the key;
  padding bytes are not checked and base64 text may contain line breaks.
* C31 `C31_nip44_no_crash_refuted`: 132 line breaks decode to nothing and index out of range. `C31_nip04_no_crash_refuted`: an iv that
  is not 16 bytes or ciphertext that is not whole blocks panics in crypto/cipher.
* C32 `C32_short_code_panics_refuted`, `C32_other_key_sizes_lost_refuted`.
* C33 `C33_other_inputs_refuted`: Difficulty slices ids shorter than 64 characters out of range. `C33_old_nonce_tag_refuted`: DoWork
  appends its tag but CommittedDifficulty reads the first nonce tag.
* C34 `C34_long_registers_panic_refuted`: registers from a relay longer than 256 crash MergeRegisters.
* C35 `C35_matched_not_counted_refuted`.
* C36 `C36_varint_round_trip_refuted`, `C36_bounds_round_trip_refuted`: EncodeVarInt panics from 2^56 on and on negative numbers.
* C37 `C37_minimal_bound_refuted`: getMinimalBound compares 16 bytes, ids that share 17 bytes are not separated.
* C39 `C39_old_events_refuted`: with 32 events from before 1970 the first message of a reconciliation crashes. `C39_alike_ids_refuted`: with ids alike in their first 16 bytes splitRange writes a bound that separates nothing.
* C38 `C38_order_refuted`: AddBytes loses a carry into a word of all ones.
* C40 `C40_exactly_once_refuted`: with a frame limit ids are reported more than once (NegentropySync filters them, other callers
  would not). `C40_hostile_message_refuted`: a bound length of 2^62 crashes the reader.
* C42 `C42_round_trip_refuted`, `C42_parser_crash_refuted`: NEG-ERROR is written, NEG-ERR is read; a message like `[1,2]` crashes the handler.
* C44 `C44_order_refuted`: each event is delivered by its own goroutine, so events may arrive out of order.
* C45 `C45_no_crash_refuted`: Fire after the context has ended sets live again and an event is sent on a closed channel.
  `C45_close_sent_refuted`: such a subscription stays on the relay, no CLOSE is sent.
* C46 `C46_time_bounds_refuted`: after the EOSE since and until are not checked. `C46_crash_refuted`: the text `["EVENT","` crashes the
  reader. `C46_forged_id_refuted`: CheckSignature never compares the id, so any signed event is accepted under any id.
  `C46_shadowed_refuted`: the duplicate check remembers an id before the event is checked, a bad event hides the good one.
* C47 `C47_lost_refuted`: a lost connection is reported as success. `C47_race_refuted`: a context that ends during the callback of a
  rejection gives success. `C47_same_event_refuted`: two publishes of one event share one callback.
* C49 `C49_never_closed_refuted`, `C49_crash_refuted`: the writer sets Connection to nil without the lock Close holds, so the connection
  may never be closed or Close dereferences nil. `C49_leak_refuted`: Subscribe on a closed relay leaves the prepared subscription behind.
* C50 `C50_late_copy_refuted`, `C50_bad_copy_refuted`: the ids seen are marked before an event is checked or taken, so a live event after one
  relay's EOSE, or a bad event, hides the stored copy of another relay.
* C51 `C51_closed_twice_refuted`: pending is decremented and read in two steps, two goroutines may both close the channel.
  `C51_repeated_url_refuted`, `C51_no_url_never_closes`: repeated URLs are counted but never finish; an empty list never closes.
* C52 `C52_newest_refuted`: the callback's result is inverted, FetchManyReplaceable drops the newest version.
* C54 `C54_backoff_refuted`, `C54_success_resets_refuted`, `C54_penalty_length_refuted`: the penalty box is only read for nil entries, which are
  never stored; success does not reset the count; the sleeper takes off more than has passed.
* C55 `C55_once_refuted`, `C55_every_event_refuted`, `C55_two_relays_refuted`, `C55_shared_cache_refuted`, `C55_limit_zero_refuted`: the paginator
  repeats events when the oldest group is split, never gets past a timestamp with a full page, skips events of the busier of two relays,
  compares with a cache that its own appends overwrite, and gives one event for a limit of zero. Not modelled: filter.Until is a pointer
  to nextUntil, so the running subscription's filter changes while its events are still being checked.
* C56 `C56_query_events_closed_refuted`: MultiStore.QueryEvents never closes its channel and drops errors when one store answered.
* C57 `C57_unique_keys_refuted`: dataloader.go says the keys given to the batch function are unique; two loads of one key give it twice.
* C58 `C58_buffers_refuted`, `C58_got_buffers_refuted`: the memory store keeps and hands out the caller's buffers, so later writes change
  stored values. `C58_use_after_close_refuted`: Set after Close panics.
* C59 `C59_sql_newest_refuted`: the upsert compares the new row with itself, so an older time overwrites a newer one.
  `C59_memory_top_zero_refuted`: TopN with n = 0 gives everything in memory. `C59_disk_2106_refuted`: times wrap at 2^32.
  `C59_badger_prefix_refuted`: an empty author gets everyone's relays. `C59_disk_long_author_refuted`: a key over 32 bytes panics.
* C60 `C60_round_trip_refuted`, `C60_lost_relays_refuted`: a relay of 256 bytes is written with length 0; the list is then unreadable and the
  next sighting replaces it. `C60_shared_prefix_refuted`: ids are cut to 8 bytes.
* C61 `C61_order_refuted`: with equal times the loaded event depends on the order of arrival.
* C62 `C62_lost_caller_refuted`: a caller that reads the slot before the owner empties it, but locks the call afterwards, waits for ever.
  `C62_other_key_refuted`: keys that agree in digits 32 to 47 share a result. `C62_short_key_refuted`: a key shorter than 48 panics.
* C63 `C63_bookmarks_refuted`: parseEventRef never accepts an item. `C63_two_markers_refuted`: a relay given for read and for write in two tags
  keeps only the first marker.
* C64 `C64_union_refuted`.
* C79 `C79_collision_refuted`: the cache hashes only the last four bytes of a key. `C79_not_hex_refuted`: keys that are short or not hex are all one.
* C80 `C80_first_page_refuted`: without a record the relays are asked for events up to second 1. `C80_local_events_lost_refuted`: what the store has is
  dropped when it is fewer than the limit.
* C81 `C81_profile_crash_refuted`: the error of nip19.Decode is ignored and nil is asserted to be a string. `C81_nobody_refuted`.
* C82 `C82_sets_refuted`: fetchGenericSets dereferences the network's nil answer.
* C83 `C83_overflow_refuted`, `C83_outbox_limit_refuted`.
* C84 `C84_repeated_refuted`: PrepareNoteEvent looks for "b" and "q" tags but adds "p", "e" and "a".
* C65 `C65_seal_kind_refuted`, `C65_wrap_unchecked_refuted`, `C65_rumor_unchecked_refuted`: GiftUnwrap checks only the seal's signature.
  `C65_six_hours_refuted`: times reach ten hours back. Rumors whose JSON is longer than 40960 bytes cannot be wrapped (`C65_size`).
* C66 `C66_empty_answer_refuted`: an empty answer is sent without the request's id. `C66_crash_refuted`: a request of 132 line feeds panics.
  `C66_dynamic_second_handler_refuted`: sessions are kept by client only. `C66_dynamic_secret_refuted`: the secret never reaches the authorisers.
  `C66_dynamic_relays_refuted`: the nil check of getRelays is inverted. `C66_client_other_event_refuted`: SignEvent accepts any signed event.
  `C66_odd_key_refuted`: IsValidPublicKey accepts 65 digits.
* C67 `C67_unlocked_refuted`: GetSession and the dynamic signer read the table without its lock.
* C68 `C68_locked_refuted`, `C68_locked_key_refuted`, `C68_bunker_never_decrypts_refuted`: two of the three keyers cannot decrypt.
* C85 `C85_twice_answered_refuted`, `C85_cancelled_refuted`: RPC closes the channel the reader sends on. `C85_lost_signal_refuted`: hasWorked is sent
  without waiting on an unbuffered channel, so a relay that is connected already is not noticed. `C85_auth_refuted`: expectingAuth is never filled.
* C86 `C86_odd_refuted`, `C86_nothing_refuted`.
* C69 `C69_spent_tokens_stay_refuted`: w.Tokens is only replaced when there is change, so without change the spent tokens stay.
* C69 `C69_signatures_crash_refuted`: a mint that answers with more signatures than outputs crashes constructProofs. `C69_target_keeps_it_refuted`: if the target of a lightning swap was paid and does not deliver, Receive gives an error and the proofs already swapped are stored nowhere.
* C70 `C70_unknown_unit_any_refuted`: every character that is not a digit or one of m, u, n, p is read as whole bitcoin.
  `C69_change_locked_refuted`: the change is locked to the recipient too. `C69_change_del_refuted`: the change token's "del" list stays empty.
  `C69_destination_refuted`, `C69_destination_inverted_refuted`: the test for an allowed mint is inverted when receiving.
  `C69_lightning_swap_refuted`: the swap over lightning mints the amount before fees. `C69_pay_loses_change_refuted`,
  `C69_pay_fee_twice_refuted`, `C69_pay_panic_refuted`, `C69_receive_panic_refuted` (no key), `C69_selection_panic` (unknown key set).
* C70 `C70_unknown_unit_refuted`, `C70_wrap_refuted`, `C70_pico_refuted`.
* C71 `C71_race_refuted`, `C71_race_forever`: a deletion handled between the flag and the clearing of the list is lost.
  `C71_late_token_refuted`: a token that arrives after its deletion is kept.
* C88 `C88_newest_loses_refuted`, `C88_unreadable_refuted`, `C88_clear_tags_refuted`. C89 `C89_zero_refuted`.
* C90 `C90_nutzap_unlocked_refuted`: the recipient's 32-byte key is given to a parser of 33- or 65-byte keys and the error dropped: every nutzap sent is
  spendable by anyone who reads it. `C90_reuse_refuted`, `C90_exact_amount_refuted`.
* C91 `C91_no_dleq_refuted`, `C91_no_key_refuted`: a nutzap crashes its reader. `C91_repeated_refuted`, `C91_empty_refuted`.
* C92 `C92_deadlock_refuted`: Send locks tokensMu and then the wallet, the token handler the wallet and then tokensMu.
* C72 `C72_reopened_refuted`, `C72_order_refuted`: a newer metadata event cannot make a group open or public again or take its description away.
  `C72_prefix_refuted`: a tag "private-relays" makes it private. `C72_removed_refuted`: members are never removed. `C72_twice_refuted`: merging the
  admins again doubles their roles. `C72_roles_lost_refuted`, `C72_roles_time_refuted`: the roles event is never read and carries the members' time.
  `C72_address_panic_refuted`, `C72_address_host_refuted`: String drops url.Parse's error and the path. `C72_no_name_refuted`.
* C73 `C73_crash_refuted`: Parse panics on "nostr:npub1…ws://x.y" where the code ends in "ws". `C73_bad_code_refuted`: and on a short naddr kind (C18).
  `C73_note_ignored_refuted`: note codes stay text.
* C74 `C74_patch_colon_refuted`, `C74_patch_kind_refuted`.
* C75 `C75_file_refuted`, `C75_file_image_refuted`, `C75_no_type_refuted`, `C75_live_times_refuted`, `C75_live_refuted`, `C75_calendar_refuted`.
* C76 `C76_space_refuted`, `C76_empty_prefix_refuted`, `C76_url_protocol_refuted`: "coap+tcp://h" becomes host "coap+tcp", port "h".
* C77 `C77_other_relay_refuted`: the path is compared without case and the query not at all. `C77_id_refuted`, `C77_first_relay_refuted`,
  `C77_empty_challenge_refuted`.
* C78 `C78_unsorted_refuted`: only for lists the library does not have.
* C93 `C93_crash_refuted`: a note with a malformed naddr makes ParseReferences panic, as the decoder does (C25). `C93_hint_refuted`: an empty hint is
  taken and a later tag with a good one is not looked at.
* C94 `C94_root_refuted`, `C94_comment_refuted`: the first tag that is marked decides even if it cannot be read, and gives the pointer to nothing.
  `C94_parent_address_refuted`: an "a" tag without marker is taken for an event id.
* C96 `C96_hidden_refuted`: the repost of a protected event is taken for unprotected when an item of an earlier tag contains "]]".
  `C96_spelling_refuted`: so it is when the text has a space after `"tags":`.
* C97 `C97_expiration_refuted`, `C97_size_refuted`, `C97_spoiled_refuted`: one imeta tag with a bad size makes all of them disappear.
* C95 `C95_plus_refuted`: the name is put into the query without escaping. `C95_normalize_twice_refuted`.
* C98 `C98_admin_refuted`: a JSON request for grantadmin or revokeadmin with two params panics always, since a JSON array is never a []string.
  `C98_kind_refuted`, `C98_type_refuted`.
* C99 `C99_reread_refuted`: numbers read from JSON are float64 and never equal an int, so AddSupportedNIP adds them again. `C99_short_refuted`: the
  documented "always return info with URL filled" fails for URLs under eight bytes. `C99_crash_refuted`: the error of NewRequest is dropped and the nil
  request is used.
* C100 `C100_download_refuted`, `C100_descriptor_refuted`, `C100_changed_refuted`, `C100_unsigned_refuted`, `C100_slashes_refuted`.
* C101 `C101_one_way_refuted`: with direction Up (or Down) nobody receives from the other channel. After 64 ids the reader of the connection waits for ever,
  and NegentropySync with it. `C101_leak_refuted`: every goroutine that reports after the first report waits for ever, and after an error so do the workers.
  `C101_crash_refuted`: a message of the relay after the last one closes the channels again, which panics. `C101_pool_refuted`: giveback does not take
  the lock, so a list can be handed out twice and two batches share memory. `C101_ids_hang_refuted`: an error from the relay is sent to a channel that
  nobody reads, and the channel given to the caller is never closed.
* C102 `C102_twice_refuted`, `C102_late_refuted`: the reader of the connection sends the COUNT reply on a channel without a buffer. If countInternal has
  gone by then, because of an earlier reply or of its timer, the reader waits for ever and the whole connection is deaf. `C102_closed_refuted`: a CLOSED
  does not end the wait. `C102_merge_refuted`: CountMany merges from several goroutines without a lock, and a smaller value can overwrite a larger one.
* C103 (envelopes_sonic.go; the filter array is a plain list, so doneWithFilterSlice is left out; text that is not JSON gives no envelope; the nine envelope
  pointers are one field). `C103_label_alone_refuted`, `C103_count_in_req_refuted`, `C103_approximate_refuted`, `C103_empty_id_refuted`,
  `C103_no_event_refuted`, `C103_null_refuted`: shapes on which the visitor returns a wrong message, nothing, or crashes.
  `C103_overwritten_refuted`: tags returned by one call are overwritten by a later call on the same parser.
* C104 (nip77/negentropy/negentropy.go with a frame limit; same model as C40, proofs in NegFrameProofs.v). `C104_server_frames_refuted`: bounds of any length are
  accepted and sent back, so a message of 5006 bytes makes a server with the limit 4096 answer with more. `C104_complete_refuted`: with the limit 4096 on both
  sides and two honest sets of 623 items, 507 of them shared, the session ends without an error and twelve ids of the server are never reported: a range
  that did not fit is dropped, and the fingerprint sent in its place covers only what follows the range's upper end.
* C105 (sdk/tracker.go, TrackModel.v). `C105_crash_refuted`: a text that crashes nip27.Parse (C75) crashes the tracker, for any event from any relay.
  `C105_virtual_in_list_refuted`, `C105_empty_relay_refuted`: the relays of a relay list are saved without the test for virtual relays, and also when the
  URL normalises to nothing. `C105_virtual_hint_refuted`: the test is made before normalising. `C105_nobody_refuted`: an nevent without author saves a hint for
  the empty key. `C105_local_in_tests_refuted`: && binds closer than ||, so in tests 127.0.0.1 stays virtual.
* C106 (sdk/metadata.go, ProfileModel.v). `C106_own_profile_refuted`: the cache key is the last eight bytes of the public key, so a key ground to share them
  shows another person's profile. `C106_unreadable_refuted`: a stored event that cannot be parsed wins over a network event of the same age.
  `C106_short_name_refuted`, `C106_long_key_refuted`: keys that are not 32 bytes crash NpubShort, ShortName or the fetch.
  `C106_nip05_outage_refuted`: a failed query counts as an invalid identifier for a week. By reading only: Nprofile ignores its argument; NIP05Valid's memory is lost
  because profiles are copied out of the cache.
* C107 (sdk/specific_event.go, SpecificModel.v). `C107_priority_first_refuted`: under any sorting algorithm the priority relays come last; the comment says first.
  `C107_last_resort_refuted`: WithRelays asks the fallback relays although the event was found. `C107_author_relays_refuted`: appendUnique drops the rest of
  the author's relays. `C107_profile_refuted`: a ProfilePointer asks with the empty filter. `C107_address_refuted`: an event whose second d tag has the identifier
  is taken. `C107_crash`: an author of 1 to 13 characters crashes it.
* C108 Key range check compares texts. `nip44.GenerateConversationKey` (nip44.go:160) compares the secret key with the order as text. A zero key spelled "", "00" or as the order in capital letters passes, and then the shared secret is 32 zero bytes for every peer: anyone can read and write the messages. A key of fewer than 64 digits that begins with f's is refused although it is in range. `GeneratePrivateKey` returns "" when the random reader fails, without error, and `GetPublicKey("")` returns 64 zeros without error; so does every spelling of zero. Bytes of a key after the first 32 are ignored.
* C100 (more) `blossom.DownloadToFile` truncates the file before it knows whether the server has the blob, and never compares the hash. `Check`, `Delete` and `List` report exactly what the server answered. `Upload` sends the hash of the first reading of the file and the body of the second: a file that changes between them is sent under another file's hash.
* C62 (more) The number by which calls of the web of trust are shared is exactly bytes 16 to 23 of the key; keys of fewer than 48 digits panic, and only those.
* C109 `nip60.constructProofs` checks the DLEQ only when the mint sends one: without it any point is taken for a signature, and the loss is noticed when the proof is spent. A mint that answers with more signatures than outputs panics the wallet. The proofs keep r beside the DLEQ, so whoever gets one with its DLEQ can recompute the blinded message: in a public nutzap the mint (and anyone) can link it. An honest mint's DLEQ fails when its hash is not below the order.
* C110 `StreamLiveFeed` gives the filter a pointer to the variable `latest` that its goroutine moves forward. Relays send stored events newest first; as soon as the first is handled, every older event of the backfill fails `sub.match` and is dropped silently, although the relay was asked for it, and its id is marked as seen so that no other relay can bring it. A relay that connects later is asked with the moved time. `oldest` starts at 0 and only goes down, so its record is never written for real times. A consumer that stops reading blocks the goroutine for ever (`events <- evt` does not watch the context). An empty list of keys gives a channel that is never closed. Keys shorter than 16 digits panic in the caller. Forgetting of ids after EOSE (pool.go:543-549) and asking again after a lost connection are not modelled.
* C111 `BatchedSubManyEose` shares the ids seen between its filters and marks an id before the signature is checked: one relay that sends a bad copy of an event hides the good copy of every other relay (C111_all_delivered_refuted), and `QuerySingle` then returns nil (C111_single_nothing_refuted). `append(opts, WithCheckDuplicate(..))` (pool.go:615, 331, 493) writes into the caller's array when the slice passed as `opts...` has spare room; two queries started with the same slice then share the check of the second, so each drops what the other has seen (C111_options_shared, exact condition).
* C112 `pool.Close` ends no connection: relays are made with `context.Background()` (pool.go:193, against the comment two lines above), stay connected and are still returned by `EnsureRelay` (C112_close_ends_all_refuted). The 50 striped locks are held during the dial, so an unreachable relay blocks for up to 15 seconds every call for any relay whose name falls on the same lock, even one that is connected; among any 51 relays two collide, whatever the hash (C112_relays_block_each_other).
* C113 `NormalizeHTTPURL` undoes the escapes of the query after encoding it (normalize.go:98-99): `?a=1%26b=2` and `?a=1&b=2` get the same form (C113_merged, for all urls), a second call loses the value (`?a=%26`), `%23` starts a fragment, `%0A` gives a string that does not parse. The slash trimmed at the end can belong to a query value (`?next=/`). A name that begins with `http` gets `http://` instead of `https://`; a scheme in capitals is taken for a host (`HTTPS://x.org` becomes `https://HTTPS://x.org`); names are compared with case. A path with both a space and `%2F` comes out with `/` in place of the `%2F` (C113_escape_lost_refuted). Mints are compared by this form.
* C114 C114 (nip60/wallet.go AddMint, RemoveMint): `C114_atomic_refuted`: when the second of two urls fails, the first stays in the list and nothing is published. `C114_removed_refuted`: the mints of a wallet event are not brought into normal form, so one written as "HTTPS://a.example" can never be removed; of one named twice only the first goes. `C114_again_refuted`: adding such a mint again fails because its own keysets collide. `C114_dead_mint_refuted`: while one mint is away no mint can be added. `C114_zero_key_refuted`, `C114_short_key_refuted`: SetPrivateKey takes 64 zeros, parse takes keys of any length. `C114_two_devices_refuted`: two devices that add a mint each swap their lists. `C114_token_refuted`: a token saved with the mint given to WithMintDestination has another mint after reading. `C114_no_key_refuted`, `C114_keyset_by_id_refuted`: receiving locked proofs without a key, or an empty keyset answer, crashes.
* C115 In the build with the tag `libsecp256k1`, CheckSignature decodes the key and the signature into arrays of fixed size with `hex.Decode`. A key of 66 hex digits or a signature of 130 writes past the array: the program panics, on an event as a relay sends it (C115_no_panic_refuted, C115_panics_exactly). A short key or signature is filled with zeros: a signature that ends in zero bytes has further texts that check, which the default build refuses (C115_second_text). Sign passes the address of the key to C without looking at its length: the empty key panics, a short key is completed with whatever lies after it in memory (C115_short_key_refuted). Keys not below the order are reduced in one build and refused in the other (C115_same_keys_refuted).
* C116 NewBunker drops the errors of GenerateConversationKey and ComputeSharedSecret and goes on with a key of 32 zero bytes. `IsValidPublicKey` accepts a key of 65 hexadecimal digits, so ConnectBunker on a bunker url with one digit too many publishes the connect request, with its secret, encrypted under the zero key, which anyone can read (C116_odd_key_refuted) and answer (C116_forged_refuted). The same happens with a client key that is not below the order (C116_client_key_refuted). `queryWellKnownNostrJson` looks at the wrong `ok`: a name without a nip46 list gives no relays instead of an error (C116_identifier_no_list_refuted); IsValidBunkerURL looks for the text `relay=` anywhere in the query, so `?norelay=x` passes (C116_valid_no_relay_refuted); without relays the call waits until its context ends (C116_no_relays_never). Any event of kind 24133 with a bad nip44 payload takes the client down (C116_reader_crash_refuted).
* C117 SearchUsers asks the search relays for the text without a kind and drops the error of ParseMetadata, so notes that match the text come back as users with empty fields (C117_search_refuted). RelayStream.Next neither locks nor reduces its counter: calls at the same time may be given the same relay (C117_same_time_refuted), and the call after the largest int crashes with a negative index (C117_overflow_refuted); a stream set to no relays crashes on its first use (C117_next_crash). PerQueryLimitInBatch answers 4 for a total limit of 1 with fifty queries (C117_limit_shared_refuted), and 19 for a total of 25 with two queries but 24 for a total of 24 (C117_limit_rises_refuted).
* C118 Contains answers for the eight middle bytes of a key: whoever makes a key with the same sixteen digits as somebody in the circle is in the web of trust (C118_same_middle). Contains crashes on keys shorter than 48 characters, but only when the circle is not empty (C118_ask_crash). The error of Populate is dropped and its nil result read, a crash (C118_make_crash). The user is not in their own circle unless somebody they follow follows them (C118_nobody).
* C119 QuerySync gives no error when the relay closes the subscription or the time is up: a refusal looks like an empty relay (C119_refusal_silent_refuted), and events received before the CLOSED can be lost (C119_closed_loses_refuted). Every CLOSED beyond the room of one leaves a goroutine behind for ever (C119_goroutines_left_refuted). Subscribe on a relay that is not connected leaves the subscription in the table until the context ends (C119_unconnected_left_refuted). A caller whose context ends while the request is being written can crash the program (C119_no_crash_refuted).
* C120 batchLoadAddressableEvents counts its waiting callers in a plain int shared by the goroutines (waiting--). Two that give up together can lose a decrement: the shared context is never cancelled, and the load goes on until the network ends it although nobody waits for it (C120_counter_lost_refuted). batchLoadReplaceableEvents has an atomic counter and is right.
* C121 WithKVStore closes the store in place even if it is the one being set: given twice, the same store is used after it was closed, and the memory store then panics on its nil map (C121_same_store_refuted). A nil store or hints database is kept as it is, unlike a nil event store or cache, and crashes later (C121_nil_kept_refuted).
* C122 fetchGenericList and fetchGenericSets give their lock back before they look into the cache. The comment says that of several equal calls one asks and the others wait for its result; in fact all of them ask the network (C122_asked_once_refuted), and the last to end overwrites the cache even with an older list (C122_newest_cached_refuted). valueWasJustCached is written outside the lock.
* C123 Repository.FetchState asks for kind 30618 with the repository's name but not for an author, and does not look at the author of what it gets: anyone can publish a state with that name, and the first one the store gives is returned as the repository's (C123_owner_refuted). With two "d" tags in the announcement FetchState uses the first and GetPatchesSync the last (C123_same_name_refuted). GetDMRelays takes the first list any relay sends, which may be outdated (C123_dm_newest_refuted). nip73 ExternalPointer.AsFilter is the empty filter, which matches every event, while MatchesEvent matches none (C123_external_filter_refuted); ExternalPointerFromTag panics on a tag with only a name (C123_external_short_refuted).
* C124 nip60/client: httpPost starts the goroutine that writes the body before it has a request; if the address is refused nobody reads or closes the pipe and the goroutine stays for ever (C124_leak_refuted). Ids and mint addresses are glued without escaping, so a `?` in either moves the endpoint or the id into the query (C124_id_refuted, C124_query_refuted). httpGet never closes the body of the answer, so connections are not given back.
* C125 nip60: deletions are asked for only with a "k" tag of 7375, which NIP-09 only recommends: a token deleted without it by another program stays in the wallet and is counted in the balance (C125_plain_deletion_refuted). A key error gives a nil wallet without an error.
* C126 nip54: the compatibility normal form is taken after the change to lower case, so letters that only become capitals by it stay capitals: U+1D400 gives "A", and "A" gives "a" (C126_fixed_refuted).
* C127 IsValidRelayURL looks at the scheme only: "ws:", "wss://" and "wss:relay.example" pass, though they have no host; pointers made from tags keep them as relays (C127_no_host_refuted). Tags.Scan drops the error of json.Unmarshal (C127_scan_refuted).
* C128 C128: a remote signer's client never gets an answer for a decrypted text equal to "auth_url" (nip46/client.go:141-148 takes it for a request to log in, so any correspondent can make NIP44Decrypt hang), for an empty NIP-04 text (the response has no id, nip46/bunker_session.go), nor for NIP44Encrypt of more than 40960 bytes (the answer exceeds NIP-44's 65535 bytes, HandleRequest returns an error and nothing is published). GetPublicKey keeps whatever non-empty text the signer answers, without checking that it is a key (nip46/client.go:167-174).
* C129 C129: DecodeNoLimit accepts both the bech32 and the bech32m checksum, which halves the protection: an npub with four wrong characters can decode to another public key (with only the bech32 checksum no four wrong characters in it could).
* C130 C130: the change to version 2 of the hints table drops last_in_tag, last_in_nprofile, last_in_nevent and last_in_nip05 without carrying the latest of them into last_in_hint, so these hints are forgotten; and a database of a later version is opened unchecked.
