-Q theories Verif
theories/Base.v
theories/LogSpec.v
theories/Core.v
theories/CoreSpec.v
theories/CoreProofs.v
theories/Properties_Core.v
theories/StoreSpec.v
theories/LogProofs.v
theories/ToyCodec.v
theories/InMemory.v
theories/InMemoryProofs.v
theories/InMemoryNumbers.v
theories/Properties_InMemory.v
theories/LevelDB.v
theories/LevelDBSpec.v
theories/LevelDBBytes.v
theories/LevelDBProofs.v
theories/LevelDBRun.v
theories/Properties_LevelDB.v
theories/Broadcaster.v
theories/BroadcasterSpec.v
theories/BroadcasterProofs.v
theories/Subscription.v
theories/SubscriptionSpec.v
theories/SubscriptionProofs.v
theories/SubscriptionCover.v
theories/SubscriptionRun.v
theories/Properties_Subscription.v
theories/Locks.v
theories/LocksSpec.v
theories/LocksProofs.v
theories/LocksLive.v
theories/LocksProgress.v
theories/LocksHeld.v
theories/LocksAnswers.v
theories/LocksStores.v
theories/LocksStoresProofs.v
theories/LocksStoresLive.v
theories/Properties_Locks.v
theories/DecText.v
theories/Postgres.v
theories/PostgresSpec.v
theories/PostgresProofs.v
theories/PostgresStream.v
theories/PostgresAck.v
theories/PostgresMore.v
theories/PostgresSeq.v
theories/PostgresFacts.v
theories/PostgresInsert.v
theories/Properties_Postgres.v
theories/EventStore.v
theories/EventStoreSpec.v
theories/EventStoreProofs.v
theories/EventStoreMore.v
theories/EventStoreFacts.v
theories/Properties_EventStore.v
theories/Text.v
theories/Remote.v
theories/RemoteSpec.v
theories/RemoteProofs.v
theories/Json.v
theories/JsonSpec.v
theories/JsonProofs.v
theories/Properties_Remote.v
theories/Http.v
theories/NumberSpec.v
theories/NumberProofs.v
theories/PathSpec.v
theories/PathProofs.v
theories/HttpSpec.v
theories/HttpProofs.v
theories/HttpRouteProofs.v
theories/Properties_Http.v
theories/Paging.v
theories/PagingSpec.v
theories/PagingProofs.v
theories/Properties_Paging.v
theories/JsonText.v
theories/JsonTextSpec.v
theories/JsonTextProofs.v
theories/RecordIo.v
theories/RecordIoSpec.v
theories/RecordIoProofs.v
theories/Properties_RecordIo.v
theories/Msgpack.v
theories/MsgpackSpec.v
theories/MsgpackProofs.v
theories/Properties_Msgpack.v
theories/Encodings.v
theories/EncodingsProofs.v
theories/Base64Spec.v
theories/Base64Proofs.v
theories/Properties_Encodings.v
theories/Crypto.v
theories/CryptoSpec.v
theories/CryptoProofs.v
theories/Properties_Crypto.v
theories/Prog.v
theories/KeyStores.v
theories/KeySpec.v
theories/KeyProofs.v
theories/KeyProofs2.v
theories/KeyProofs3.v
theories/CacheProofs.v
theories/Properties_KeyStores.v
theories/Events.v
theories/EventsSpec.v
theories/EventsProofs.v
theories/Properties_Events.v
theories/Stats.v
theories/StatsSpec.v
theories/StatsProofs.v
theories/Properties_Stats.v
theories/Cqrs.v
theories/CqrsSpec.v
theories/CqrsProofs.v
theories/Chat.v
theories/ChatSpec.v
theories/ChatProofs.v
theories/Properties_Chat.v
theories/WebSocket.v
theories/WebSocketSpec.v
theories/WebSocketProofs.v
theories/WebSocketRequestProofs.v
theories/Properties_WebSocket.v
theories/RemoteFeed.v
theories/RemoteFeedSpec.v
theories/RemoteFeedProofs.v
theories/Properties_RemoteFeed.v
theories/SubscriptionGap.v
theories/Properties_Gap.v
theories/SubscriptionOnly.v
theories/Ui.v
theories/UiSpec.v
theories/UiProofs.v
theories/UiTypeProofs.v
theories/Properties_Ui.v
theories/Follow.v
theories/FollowSpec.v
theories/FollowProofs.v
theories/Properties_Follow.v
theories/Bdd.v
theories/BddProofs.v
theories/Properties_Bdd.v
theories/Server.v
theories/ServerSpec.v
theories/ServerProofs.v
theories/Properties_Server.v
theories/Generators.v
theories/GeneratorsSpec.v
theories/GeneratorsProofs.v
theories/Properties_Generators.v
theories/UiCells.v
theories/UiCellsSpec.v
theories/UiCellsProofs.v
theories/Properties_UiCells.v
theories/HttpStorySpec.v
theories/HttpStoryProofs.v
theories/Properties_HttpStory.v
theories/HttpCrash.v
theories/HttpCrashSpec.v
theories/Properties_HttpCrash.v
theories/Properties_Cancel.v
theories/JsonGrammar.v
theories/JsonGrammarProofs.v
theories/JsonGrammarReads.v
theories/JsonRecordSpec.v
theories/JsonRecordProofs.v
theories/Properties_JsonGrammar.v
theories/HttpBytes.v
theories/HttpBytesSpec.v
theories/PatchCodec.v
theories/HttpBytesJson.v
theories/HttpBytesProofs.v
theories/Properties_HttpBytes.v
theories/JsonStoreSpec.v
theories/JsonStoreProofs.v
theories/Properties_JsonStore.v
theories/HttpBytesCrash.v
theories/HttpBytesCrashSpec.v
theories/Properties_HttpBytesCrash.v
theories/HttpConc.v
theories/HttpConcSpec.v
theories/HttpConcProofs.v
theories/Properties_HttpConc.v
theories/MsgpackGrammar.v
theories/MsgpackGrammarProofs.v
theories/Properties_MsgpackGrammar.v
theories/Pretty.v
theories/PrettySpec.v
theories/PrettyProofs.v
theories/Properties_Pretty.v
theories/Dates.v
theories/DatesSpec.v
theories/DatesProofs.v
theories/Properties_Dates.v
theories/Clocks.v
theories/ClocksSpec.v
theories/ClocksProofs.v
theories/Properties_Clocks.v
theories/Properties_CancelEs.v
theories/Properties_Retry.v
theories/Properties_ConflictText.v
theories/UiJson.v
theories/Properties_UiJson.v
theories/Properties_RetryRemote.v
theories/Properties_Stays.v
theories/Properties_StaysBusy.v
theories/Properties_StaysPg.v
theories/Properties_MomentPg.v
theories/Properties_MomentBusy.v
theories/Properties_PgAnswered.v
theories/Properties_HttpNames.v
theories/Properties_EsWaitFree.v
theories/Properties_LocksOnce.v
