-Q theories Verif
theories/AcceptCodes_Model.v
theories/AcceptCodes_Proofs.v
theories/AcceptCodes_Props.v
theories/AcceptQueue_Model.v
theories/AcceptQueue_Proofs.v
theories/AcceptQueue_Props.v
theories/AcceptQueue_Spec.v
theories/Args_Model.v
theories/Args_Proofs.v
theories/Args_Props.v
theories/Args_Spec.v
theories/Base.v
theories/BeaconBridge_Model.v
theories/BeaconBridge_Proofs.v
theories/BeaconBridge_Props.v
theories/BeaconBridge_Spec.v
theories/BeaconStore_Model.v
theories/BeaconStore_Proofs.v
theories/BeaconStore_Props.v
theories/BeaconStore_Spec.v
theories/BeaconText_Model.v
theories/BeaconText_Props.v
theories/BeaconText_Spec.v
theories/BlockExec_Model.v
theories/BlockExec_Props.v
theories/BlockExec_Spec.v
theories/BridgeMetrics_Model.v
theories/BridgeMetrics_Props.v
theories/BridgeMetrics_Spec.v
theories/BridgeTools_Model.v
theories/BridgeTools_Props.v
theories/BridgeTools_Spec.v
theories/Builders_Model.v
theories/Builders_Props.v
theories/Builders_Spec.v
theories/Capacity_Model.v
theories/Capacity_Props.v
theories/Census_Model.v
theories/Census_Proofs.v
theories/Census_Props.v
theories/Census_Spec.v
theories/ChainHead_Model.v
theories/ChainHead_Props.v
theories/ChainHead_Spec.v
theories/Checkpoints_Model.v
theories/Checkpoints_Props.v
theories/Checkpoints_Spec.v
theories/DiscNode_Model.v
theories/DiscNode_Props.v
theories/DiscNode_Spec.v
theories/Dispatch_Model.v
theories/Dispatch_Props.v
theories/Dispatch_Spec.v
theories/Distance_Model.v
theories/Distance_Proofs.v
theories/Distance_Props.v
theories/Distance_Spec.v
theories/Download_Model.v
theories/Download_Props.v
theories/Download_Spec.v
theories/E2Store_Model.v
theories/E2Store_Proofs.v
theories/E2Store_Props.v
theories/E2Store_Spec.v
theories/E2hsBridge_Model.v
theories/E2hsBridge_Proofs.v
theories/E2hsBridge_Props.v
theories/E2hsBridge_Spec.v
theories/E2hsWriter_Model.v
theories/E2hsWriter_Proofs.v
theories/E2hsWriter_Props.v
theories/E2hsWriter_Spec.v
theories/EphBridge_Model.v
theories/EphBridge_Proofs.v
theories/EphBridge_Props.v
theories/EphBridge_Spec.v
theories/EraFiles_Model.v
theories/EraFiles_Proofs.v
theories/EraFiles_Proofs2.v
theories/EraFiles_Props.v
theories/EraFiles_Spec.v
theories/EraRead_Props.v
theories/EraRead_Spec.v
theories/EthApi_Model.v
theories/EthApi_Props.v
theories/EthApi_Spec.v
theories/EthCall_Model.v
theories/EthCall_Props.v
theories/EthCall_Spec.v
theories/EvmState_Model.v
theories/EvmState_Proofs.v
theories/EvmState_Props.v
theories/EvmState_Spec.v
theories/ExecDb_Model.v
theories/ExecDb_Proofs.v
theories/ExecDb_Props.v
theories/ExecDb_Runs.v
theories/ExecDb_Spec.v
theories/ExecRun_Model.v
theories/ExecRun_Props.v
theories/ExecRun_Spec.v
theories/ExecSnap_Model.v
theories/ExecSnap_Proofs.v
theories/ExecSnap_Props.v
theories/ExecSnap_Spec.v
theories/F64_Model.v
theories/F64_Proofs.v
theories/FileIndex_Model.v
theories/FileIndex_Props.v
theories/FileIndex_Spec.v
theories/FileNames_Model.v
theories/FileNames_Props.v
theories/FileNames_Spec.v
theories/Gossip_Model.v
theories/Gossip_Proofs.v
theories/Gossip_Props.v
theories/Gossip_Spec.v
theories/HeadFollow_Model.v
theories/HeadFollow_Proofs.v
theories/HeadFollow_Props.v
theories/HeadFollow_Spec.v
theories/HeadGen_Model.v
theories/HeadGen_Proofs.v
theories/HeadGen_Props.v
theories/HeadGen_Spec.v
theories/Header_Model.v
theories/Header_Proofs.v
theories/Header_Props.v
theories/Header_Spec.v
theories/Hex_Model.v
theories/Hex_Proofs.v
theories/Hex_Props.v
theories/Hex_Spec.v
theories/Identity_Model.v
theories/Identity_Props.v
theories/Identity_Spec.v
theories/Join_Model.v
theories/Join_Props.v
theories/Join_Spec.v
theories/KBucket_Model.v
theories/KBucket_Proofs.v
theories/KBucket_Props.v
theories/KBucket_Spec.v
theories/KeySpace_Model.v
theories/KeySpace_Props.v
theories/KeySpace_Spec.v
theories/Keys_Model.v
theories/Keys_Proofs.v
theories/Keys_Props.v
theories/Keys_Spec.v
theories/LcRpc_Model.v
theories/LcRpc_Props.v
theories/LcRpc_Spec.v
theories/LcStart_Model.v
theories/LcStart_Props.v
theories/LcStart_Spec.v
theories/LcSync_Model.v
theories/LcSync_Props.v
theories/LcSync_Spec.v
theories/LegacyHistory_Model.v
theories/LegacyHistory_Proofs.v
theories/LegacyHistory_Props.v
theories/LegacyHistory_Spec.v
theories/LightClient_Model.v
theories/LightClient_Proofs.v
theories/LightClient_Props.v
theories/LightClient_Spec.v
theories/Merkle_Model.v
theories/Merkle_Proofs.v
theories/Merkle_Props.v
theories/Merkle_Spec.v
theories/Metrics_Model.v
theories/Metrics_Proofs.v
theories/Metrics_Props.v
theories/Metrics_Spec.v
theories/NodeLookup_Model.v
theories/NodeLookup_Proofs.v
theories/NodeLookup_Props.v
theories/NodeLookup_Spec.v
theories/OfferAccept_Model.v
theories/OfferAccept_Proofs.v
theories/OfferAccept_Props.v
theories/OfferAccept_Spec.v
theories/OverlayApi_Model.v
theories/OverlayApi_Proofs.v
theories/OverlayApi_Props.v
theories/OverlayApi_Spec.v
theories/Payload_Model.v
theories/Payload_Proofs.v
theories/Payload_Props.v
theories/Payload_Spec.v
theories/Permits_Model.v
theories/Permits_Props.v
theories/Ping_Model.v
theories/Ping_Proofs.v
theories/Ping_Props.v
theories/Ping_Spec.v
theories/ProtoInfo_Model.v
theories/ProtoInfo_Props.v
theories/ProtoInfo_Spec.v
theories/Providers_Model.v
theories/Providers_Proofs.v
theories/Providers_Props.v
theories/Providers_Spec.v
theories/QueryPool_Model.v
theories/QueryPool_Props.v
theories/QueryPool_Spec.v
theories/Query_Model.v
theories/Query_Proofs.v
theories/Query_Props.v
theories/Query_Spec.v
theories/Receive_Model.v
theories/Receive_Proofs.v
theories/Receive_Props.v
theories/Receive_Spec.v
theories/Rewards_Model.v
theories/Rewards_Props.v
theories/Rewards_Spec.v
theories/Serve_Model.v
theories/Serve_Props.v
theories/Serve_Spec.v
theories/SnapStats_Model.v
theories/SnapStats_Props.v
theories/SnapStats_Spec.v
theories/Sort_Model.v
theories/Ssz_Model.v
theories/Ssz_Proofs.v
theories/StateContent_Model.v
theories/StateContent_Proofs.v
theories/StateContent_Props.v
theories/StateContent_Spec.v
theories/StateRun_Model.v
theories/StateRun_Props.v
theories/StateRun_Spec.v
theories/Store_Model.v
theories/Store_Proofs.v
theories/Store_Proofs2.v
theories/Store_Props.v
theories/Store_Spec.v
theories/Trace_Model.v
theories/Trace_Proofs.v
theories/Trace_Props.v
theories/Trace_Spec.v
theories/Trie_Codec.v
theories/Trie_Model.v
theories/Trie_Proofs.v
theories/Trie_Props.v
theories/Trie_Spec.v
theories/TxEnv_Model.v
theories/Upload_Model.v
theories/Upload_Props.v
theories/Upload_Spec.v
theories/UserApi_Model.v
theories/UserApi_Props.v
theories/UserApi_Spec.v
theories/Versioned_Model.v
theories/Versioned_Proofs.v
theories/Versioned_Props.v
theories/Versioned_Spec.v
theories/Walker_Content.v
theories/Walker_Model.v
theories/Walker_Proofs.v
theories/Walker_Props.v
theories/Walker_Spec.v
theories/Walker_Walk.v
theories/Wire_Model.v
theories/Wire_Proofs.v
theories/Wire_Props.v
theories/Wire_Spec.v
