-Q theories Verif
theories/Base.v
theories/Codec.v
theories/CodecProofs.v
theories/PropCodec.v
theories/Kv.v
theories/AMap.v
theories/Trie.v
theories/TrieSpec.v
theories/TrieRep.v
theories/TrieIns.v
theories/TrieDel.v
theories/TrieTop.v
theories/TrieHash.v
theories/TrieRun.v
theories/PropTrie.v
theories/Version.v
theories/PropVersion.v
theories/Mempool.v
theories/MempoolProofs.v
theories/PropMempool.v
theories/RateLimit.v
theories/RateLimitProofs.v
theories/PropRateLimit.v
theories/Gasless.v
theories/GaslessProofs.v
theories/PropGasless.v
theories/Channel.v
theories/ChannelProofs.v
theories/PropChannel.v
theories/Store.v
theories/StoreSpec.v
theories/StoreProofs.v
theories/StoreDefs.v
theories/StoreTop.v
theories/EventLog.v
theories/EventLogProofs.v
theories/PropEventLog.v
theories/PropStore.v
theories/Consensus.v
theories/ConsensusProofs.v
theories/PropConsensus.v
theories/Paging.v
theories/PagingProofs.v
theories/BlockStoreProofs.v
theories/PropPaging.v
theories/Storage.v
theories/StorageProofs.v
theories/PropStorage.v
theories/OnChain.v
theories/OnChainProofs.v
theories/PropOnChain.v
theories/Names.v
theories/NamesProofs.v
theories/PropNames.v
theories/VerifQuota.v
theories/VerifQuotaProofs.v
theories/PropVerifQuota.v
theories/Engine.v
theories/EngineProofs.v
theories/EngineSeq.v
theories/PropEngine.v
theories/PropEngineIds.v
theories/ShardZero.v
theories/ShardZeroProofs.v
theories/PropShardZero.v
theories/ChannelUri.v
theories/ChannelUriProofs.v
theories/PropChannelUri.v
theories/Regex.v
theories/Validate.v
theories/ValidateProofs.v
theories/PropValidate.v
theories/TrieScan.v
theories/TrieScanProofs.v
theories/PropTrieScan.v
theories/Txn.v
theories/TxnSpec.v
theories/TxnProofs.v
theories/PropTxn.v
theories/Migrate.v
theories/MigrateSpec.v
theories/MigrateProofs.v
theories/MigrateInv.v
theories/MigrateLookup.v
theories/PropMigrate.v
theories/Bootstrap.v
theories/BootstrapProofs.v
theories/PropBootstrap.v
theories/BootClient.v
theories/BootClientProofs.v
theories/PropBootClient.v
theories/BootSched.v
theories/PropBootSched.v
theories/EventApi.v
theories/EventApiProofs.v
theories/PropEventApi.v
theories/PropEventPrune.v
theories/Connector.v
theories/ConnectorProofs.v
theories/PropConnector.v
theories/Replicator.v
theories/PropReplicator.v
theories/Wire.v
theories/WireProofs.v
theories/ConsensusWire.v
theories/ConsensusWireProofs.v
theories/PropConsensusWire.v
theories/DbSnapshot.v
theories/DbSnapshotProofs.v
theories/PropDbSnapshot.v
theories/Startup.v
theories/StartupProofs.v
theories/PropStartup.v
theories/LocalState.v
theories/LocalStateProofs.v
theories/PropLocalState.v
theories/FanOut.v
theories/FanOutProofs.v
theories/PropFanOut.v
theories/Jobs.v
theories/JobsProofs.v
theories/PropJobs.v
theories/ReadSync.v
theories/ReadSyncProofs.v
theories/PropReadSync.v
theories/Inbound.v
theories/InboundProofs.v
theories/PropInbound.v
theories/Submit.v
theories/SubmitProofs.v
theories/PropSubmit.v
theories/NameReads.v
theories/PropNameReads.v
theories/Auth.v
theories/AuthProofs.v
theories/PropAuth.v
theories/Mesh.v
theories/MeshProofs.v
theories/PropMesh.v
theories/Extern.v
theories/PropExtern.v
theories/Discovery.v
theories/DiscoveryProofs.v
theories/PropDiscovery.v
theories/Http.v
theories/HttpProofs.v
theories/PropHttp.v
theories/ChainLog.v
theories/PropChainLog.v
theories/KeyShards.v
theories/KeyShardsProofs.v
theories/PropKeyShards.v
theories/Confirm.v
theories/PropConfirm.v
theories/ChannelReads.v
theories/ChannelReadsProofs.v
theories/PropChannelReads.v
theories/AddrReads.v
theories/PropAddrReads.v
theories/NodeReads.v
theories/PropNodeReads.v
theories/ParentChain.v
theories/PropParentChain.v
theories/ChanStateReads.v
theories/PropChanStateReads.v
theories/ChannelFollow.v
theories/PropChannelFollow.v
theories/TrieMeta.v
theories/PropTrieMeta.v
