-Q theories Verif

theories/Wire_Model.v
theories/Wire_Proofs.v
theories/Wire_Proofs2.v
theories/Wire_Proofs3.v
theories/Wire_Proofs4.v
theories/Wire_Props.v
theories/Base_Model.v
theories/Base_Proofs.v
theories/Grid_Model.v
theories/Grid_Proofs.v
theories/Canon_Model.v
theories/Canon_Proofs.v
theories/Config_Props.v
theories/Fanout_Model.v
theories/Fanout_Proofs.v
theories/Fanout_Props.v
theories/Fanout_Proofs2.v
theories/Fanout_Props2.v
theories/Fanout_Props3.v
theories/Place_Model.v
theories/Place_Proofs.v
theories/Place_Props.v
theories/Seq_Model.v
theories/Seq_Proofs.v
theories/Seq_Proofs2.v
theories/Seq_Props.v
theories/Seq_Props2.v
theories/Iter_Model.v
theories/Iter_Proofs.v
theories/Iter_Proofs2.v
theories/Iter_Props.v
theories/Iter_Proofs3.v
theories/Iter_Props2.v
theories/Iter_Props3.v
theories/AList_Model.v
theories/AList_Proofs.v
theories/AList_Proofs2.v
theories/AList_Props.v
theories/Rpc_Model.v
theories/Rpc_Proofs.v
theories/Rpc_Proofs2.v
theories/Rpc_Props.v
theories/Sync_Model.v
theories/Sync_Proofs.v
theories/Sync_Proofs2.v
theories/Sync_Props.v
theories/Pool_Model.v
theories/Pool_Proofs.v
theories/Pool_Props.v
theories/Pool_Props2.v
theories/Log_Model.v
theories/Log_Proofs.v
theories/Log_Proofs2.v
theories/Log_Props.v
theories/Log_Props2.v
theories/Float_Model.v
theories/Float_Proofs.v
theories/Sum_Model.v
theories/Sum_Proofs.v
theories/Sum_Proofs2.v
theories/Sum_Props.v
theories/Float_Proofs2.v
theories/Dist_Model.v
theories/Dist_Proofs.v
theories/Dist_Proofs2.v
theories/Dist_Proofs3.v
theories/Dist_Props.v
theories/Dist_Props2.v
theories/Util_Model.v
theories/Util_Proofs.v
theories/Util_Props.v
theories/Util_Props2.v
theories/Net_Model.v
theories/Net_Proofs.v
theories/Net_Props.v
theories/Net_Props2.v
theories/Driver_Model.v
theories/Driver_Proofs.v
theories/Driver_Props.v
theories/Node_Model.v
theories/Node_Proofs.v
theories/Node_Props.v
theories/Grpc_Model.v
theories/Grpc_Proofs.v
theories/Grpc_Proofs2.v
theories/Grpc_Props.v
theories/Replay_Model.v
theories/Replay_Proofs.v
theories/Replay_Proofs2.v
theories/Replay_Proofs3.v
theories/Replay_Proofs4.v
theories/Replay_Props.v
theories/Replay_Proofs5.v
theories/Replay_Props2.v
theories/Merc_Model.v
theories/Merc_Proofs.v
theories/Merc_Props.v
theories/Homa_Model.v
theories/Homa_Proofs.v
theories/Homa_Proofs2.v
theories/Homa_Props.v
theories/Homa_Props2.v
theories/Table_Model.v
theories/Table_Proofs.v
theories/Table_Proofs2.v
theories/Table_Props.v
theories/Peer_Model.v
theories/Peer_Proofs.v
theories/Peer_Props.v
theories/Cli_Model.v
theories/Cli_Proofs.v
theories/Cli_Props.v
theories/Cli_Props2.v
theories/Cluster_Model.v
theories/Cluster_Proofs.v
theories/Cluster_Props.v
theories/Deliver_Model.v
theories/Deliver_Proofs.v
theories/Deliver_Props.v
theories/Session_Model.v
theories/Session_Proofs.v
theories/Session_Props.v
theories/Conn_Model.v
theories/Conn_Proofs.v
theories/Conn_Proofs2.v
theories/Conn_Props.v
theories/Conn_Props2.v
theories/Report_Model.v
theories/Report_Proofs.v
theories/Report_Proofs2.v
theories/Report_Props.v
theories/Text_Model.v
theories/Float_Proofs3.v
theories/Text_Proofs.v
theories/Text_Proofs2.v
theories/Text_Props.v
theories/Work_Model.v
theories/Work_Proofs.v
theories/Work_Proofs2.v
theories/Work_Proofs3.v
theories/Work_Proofs4.v
theories/Work_Proofs5.v
theories/Work_Props.v
theories/Work_Props2.v
theories/Work_Proofs6.v
theories/Work_Props3.v
theories/Work_Props4.v
theories/Usage_Model.v
theories/Usage_Proofs.v
theories/Usage_Props.v
theories/Life_Model.v
theories/Life_Proofs.v
theories/Life_Proofs2.v
theories/Life_Proofs3.v
theories/Life_Props.v
theories/Host_Model.v
theories/Host_Proofs.v
theories/Host_Props.v
theories/Engine_Model.v
theories/Engine_Proofs.v
theories/Engine_Proofs2.v
theories/Engine_Props.v
theories/Msrv_Model.v
theories/Msrv_Proofs.v
theories/Msrv_Proofs2.v
theories/Msrv_Props.v
theories/Msrv_Props2.v
theories/Clock_Model.v
theories/Clock_Proofs.v
theories/Clock_Props.v
theories/Mnet_Model.v
theories/Mnet_Proofs.v
theories/Mnet_Proofs2.v
theories/Mnet_Props.v
theories/Mnet_Props2.v
theories/Gsrv_Model.v
theories/Gsrv_Proofs.v
theories/Gsrv_Props.v
theories/Gnet_Model.v
theories/Gnet_Proofs.v
theories/Gnet_Proofs2.v
theories/Gnet_Props.v
theories/Gnet_Props2.v
theories/Gnet_Props3.v
theories/Hnet_Model.v
theories/Hnet_Proofs.v
theories/Hnet_Proofs2.v
theories/Hnet_Props.v
theories/Hnet_Props2.v
theories/Comp_Model.v
theories/Comp_Proofs.v
theories/Comp_Proofs2.v
theories/Comp_Props.v
theories/Comp_Props2.v
theories/Res_Model.v
theories/Res_Proofs.v
theories/Res_Proofs2.v
theories/Res_Proofs3.v
theories/Res_Props.v
theories/Tree_Model.v
theories/Tree_Proofs.v
theories/Tree_Proofs2.v
theories/Tree_Proofs3.v
theories/Tree_Props.v
theories/Lock_Model.v
theories/Lock_Proofs.v
theories/Lock_Props.v
theories/Race_Model.v
theories/Race_Proofs.v
theories/Race_Props.v
theories/Save_Model.v
theories/Save_Proofs.v
theories/Save_Props.v
theories/Mpool_Model.v
theories/Mpool_Proofs.v
theories/Mpool_Props.v
theories/Copy_Model.v
theories/Copy_Props.v
theories/Slot_Model.v
theories/Slot_Props.v
theories/Slot_Props2.v
