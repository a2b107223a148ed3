-Q theories Verif

theories/AdminModel.v
theories/AuthModel.v
theories/Base.v
theories/BatchLoadModel.v
theories/BatchModel.v
theories/BatchProofs.v
theories/Bech32Errors.v
theories/Bech32Model.v
theories/Bech32Proofs.v
theories/BlindModel.v
theories/BlobModel.v
theories/BlocksModel.v
theories/BunkerCallsModel.v
theories/BunkerModel.v
theories/BunkerProofs.v
theories/CipherModel.v
theories/CipherProofs.v
theories/CountModel.v
theories/CryptoModel.v
theories/CryptoProofs.v
theories/EnsureModel.v
theories/EnsureProofs.v
theories/EnvelopeModel.v
theories/EnvelopeProofs.v
theories/EventModel.v
theories/EventProofs.v
theories/FeedModel.v
theories/FeedProofs.v
theories/FilterHeap.v
theories/FilterModel.v
theories/FilterProofs.v
theories/GiftModel.v
theories/GiftProofs.v
theories/GroupModel.v
theories/HintsProofs.v
theories/HllModel.v
theories/HllProofs.v
theories/HttpUrlModel.v
theories/HttpUrlProofs.v
theories/IdentModel.v
theories/JLexModel.v
theories/JLexProofs.v
theories/JReadProofs.v
theories/JsonEventProofs.v
theories/JsonFilterProofs.v
theories/JsonSpec.v
theories/KeyModel.v
theories/KeyProofs.v
theories/LibsecpModel.v
theories/ListsModel.v
theories/LoaderModel.v
theories/LoaderProofs.v
theories/Machine.v
theories/MetaModel.v
theories/MintHttpModel.v
theories/MintModel.v
theories/NegEnvModel.v
theories/NegFrameProofs.v
theories/NegModel.v
theories/NegProofs.v
theories/NegProtocol.v
theories/NegSyncModel.v
theories/Nip19Model.v
theories/Nip19Proofs.v
theories/PageModel.v
theories/PageProofs.v
theories/PoolModel.v
theories/PoolProofs.v
theories/PowModel.v
theories/PowProofs.v
theories/ProfileModel.v
theories/Props_Admin.v
theories/Props_Auth.v
theories/Props_Batch.v
theories/Props_BatchLoad.v
theories/Props_Bech32Errors.v
theories/Props_Blind.v
theories/Props_Blocks.v
theories/Props_Bunker.v
theories/Props_BunkerCalls.v
theories/Props_Cipher.v
theories/Props_Count.v
theories/Props_Ensure.v
theories/Props_Envelope.v
theories/Props_Event.v
theories/Props_Feed.v
theories/Props_Filter.v
theories/Props_Gift.v
theories/Props_Group.v
theories/Props_Hll.v
theories/Props_HttpUrl.v
theories/Props_Ident.v
theories/Props_Json.v
theories/Props_JsonAny.v
theories/Props_JsonRead.v
theories/Props_Key.v
theories/Props_Libsecp.v
theories/Props_Lists.v
theories/Props_Loader.v
theories/Props_Meta.v
theories/Props_Mint.v
theories/Props_MintHttp.v
theories/Props_Neg.v
theories/Props_NegFrame.v
theories/Props_NegSync.v
theories/Props_Nip19.v
theories/Props_Page.v
theories/Props_Pool.v
theories/Props_Pow.v
theories/Props_Profile.v
theories/Props_Query.v
theories/Props_Ref.v
theories/Props_Relay.v
theories/Props_RelayUrl.v
theories/Props_RepoRead.v
theories/Props_Rotate.v
theories/Props_Rpc.v
theories/Props_Sdk.v
theories/Props_Signer.v
theories/Props_Sonic.v
theories/Props_Specific.v
theories/Props_SqlHints.v
theories/Props_Store.v
theories/Props_Struct.v
theories/Props_Sub.v
theories/Props_System.v
theories/Props_Tags.v
theories/Props_Track.v
theories/Props_Wallet.v
theories/Props_WalletLoad.v
theories/Props_WalletOpen.v
theories/Props_Words.v
theories/Props_Wot.v
theories/Props_WotLoad.v
theories/QueryModel.v
theories/RefModel.v
theories/RelayModel.v
theories/RelayProofs.v
theories/RelayUrlModel.v
theories/RepoReadModel.v
theories/RotateModel.v
theories/RpcModel.v
theories/ScanProofs.v
theories/SignerModel.v
theories/SignerProofs.v
theories/SonicMemProofs.v
theories/SonicModel.v
theories/SonicProofs.v
theories/SpecificModel.v
theories/SqlHintsModel.v
theories/StoreModel.v
theories/StoreProofs.v
theories/StructModel.v
theories/SubModel.v
theories/SubProofs.v
theories/SystemModel.v
theories/TagsModel.v
theories/TagsProofs.v
theories/TrackModel.v
theories/WalletLoadModel.v
theories/WalletModel.v
theories/WalletOpenModel.v
theories/WalletProofs.v
theories/WordsModel.v
theories/WotLoadModel.v
theories/WotModel.v
theories/WotProofs.v
