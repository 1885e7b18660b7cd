-Q theories Verif
theories/PyBase.v
theories/PyBaseFacts.v
theories/ValuesM.v
theories/Spec_Eq.v
theories/ValuesFacts.v
theories/FiltersM.v
theories/StateM.v
theories/Spec_State.v
theories/State_proofs.v
theories/Prop_State.v
theories/ModuleM.v
theories/Spec_Module.v
theories/Graph_facts.v
theories/Dfs_proofs.v
theories/Build_proofs.v
theories/Bisim_proofs.v
theories/RoundTrip_proofs.v
theories/Clone_proofs.v
theories/Skel_proofs.v
theories/Update_proofs.v
theories/Refuse_proofs.v
theories/Mdef_proofs.v
theories/Write_proofs.v
theories/Pop_proofs.v
theories/ForEach_proofs.v
theories/Spec_History.v
theories/History_proofs.v
theories/PureM.v
theories/Pure_proofs.v
theories/Ex_Module.v
theories/Call_proofs.v
theories/Laws_proofs.v
theories/Prop_Module.v
theories/Revalue_proofs.v
theories/Prop_Merge.v
theories/Prop_Pure.v
theories/ContextM.v
theories/Spec_Context.v
theories/Context_proofs.v
theories/Prop_Context.v
theories/IdsM.v
theories/Ids_proofs.v
theories/Prop_Ids.v
theories/SpmdM.v
theories/Spec_Spmd.v
theories/Spmd_proofs.v
theories/Prop_Spmd.v
theories/TlsM.v
theories/Spec_Tls.v
theories/Tls_proofs.v
theories/Prop_Tls.v
theories/Spec_Container.v
theories/Container_proofs.v
theories/Prop_Container.v
theories/PytreeM.v
theories/Spec_Pytree.v
theories/Pytree_proofs.v
theories/Prop_Pytree.v
theories/PtreeM.v
theories/Spec_Ptree.v
theories/Ptree_proofs.v
theories/Prop_Ptree.v
theories/HelpersM.v
theories/Spec_Helpers.v
theories/Helpers_proofs.v
theories/Prop_Helpers.v
theories/Spec_Prog.v
theories/Grow_proofs.v
theories/TransformM.v
theories/Prog_proofs.v
theories/Transform_proofs.v
theories/Prop_Transform.v
theories/ScanM.v
theories/Spec_Scan.v
theories/Scan_proofs.v
theories/ScanRng_proofs.v
theories/Prop_Scan.v
theories/TensorM.v
theories/NnM.v
theories/LinearM.v
theories/Spec_Nn.v
theories/Tensor_proofs.v
theories/Dropout_proofs.v
theories/Prop_Dropout.v
theories/Norm_proofs.v
theories/BatchNorm_proofs.v
theories/LayerNorm_proofs.v
theories/Prop_Norm.v
theories/Spec_Conv.v
theories/Conv_proofs.v
theories/ConvValue_proofs.v
theories/Prop_Conv.v
theories/Spec_Linear.v
theories/Prop_Linear.v
theories/Prop_Init.v
theories/TrainM.v
theories/Spec_Train.v
theories/Train_proofs.v
theories/Prop_Train.v
theories/JitCacheM.v
theories/Spec_JitCache.v
theories/JitCache_proofs.v
theories/Prop_JitCache.v
theories/ScanInitM.v
theories/Spec_ScanInit.v
theories/ScanInit_proofs.v
theories/Prop_ScanInit.v
theories/ScanDeco_proofs.v
theories/Prop_ScanDeco.v
theories/ModReprM.v
theories/Spec_ModRepr.v
theories/ModRepr_proofs.v
theories/Prop_ModRepr.v
theories/ScanClassM.v
theories/Spec_ScanClass.v
theories/ScanClass_proofs.v
theories/Prop_ScanClass.v
theories/JitArgsM.v
theories/Spec_JitArgs.v
theories/JitArgs_proofs.v
theories/Prop_JitArgs.v
theories/Spec_Leaf.v
theories/Leaf_proofs.v
theories/Prop_Leaf.v
theories/RematArgsM.v
theories/Spec_RematArgs.v
theories/RematArgs_proofs.v
theories/Prop_RematArgs.v
theories/Spec_Mixed.v
theories/Mixed_proofs.v
theories/Prop_Mixed.v
theories/GradArgsM.v
theories/Spec_GradArgs.v
theories/GradArgs_proofs.v
theories/Prop_GradArgs.v
theories/DecorM.v
theories/Spec_Decor.v
theories/Decor_proofs.v
theories/Prop_Decor.v
theories/LogicalM.v
theories/Spec_Logical.v
theories/Logical_proofs.v
theories/Prop_Logical.v
theories/DtypeM.v
theories/Spec_Dtype.v
theories/Dtype_proofs.v
theories/Prop_Dtype.v
theories/DataclassM.v
theories/Spec_Dataclass.v
theories/Dataclass_proofs.v
theories/Prop_Dataclass.v
theories/CopyM.v
theories/Spec_Copy.v
theories/Copy_proofs.v
theories/Prop_Copy.v
theories/Spec_Reach.v
theories/Reach_proofs.v
theories/Prop_Reach.v
theories/ScanTreeM.v
theories/Spec_ScanTree.v
theories/ScanTree_proofs.v
theories/Prop_ScanTree.v
theories/PNormM.v
theories/Spec_PNorm.v
theories/PNorm_proofs.v
theories/Prop_PNorm.v
theories/JitLoopM.v
theories/Spec_JitLoop.v
theories/JitLoop_proofs.v
theories/Prop_JitLoop.v
theories/Spec_AnyDef.v
theories/AnyDef_proofs.v
theories/Prop_AnyDef.v
theories/StateMapM.v
theories/Spec_StateMap.v
theories/StateMap_proofs.v
theories/Prop_StateMap.v
theories/HashM.v
theories/Spec_Hash.v
theories/Hash_proofs.v
theories/Prop_Hash.v
theories/TracersM.v
theories/Spec_Tracers.v
theories/Tracers_proofs.v
theories/Prop_Tracers.v
theories/ScanExc_proofs.v
theories/Prop_ScanExc.v
theories/AliasM.v
theories/Spec_Alias.v
theories/Alias_proofs.v
theories/Alias2_proofs.v
theories/Alias3_proofs.v
theories/Alias4_proofs.v
theories/Alias5_proofs.v
theories/Prop_Alias.v
theories/Spec_Functional.v
theories/Functional_proofs.v
theories/Prop_Functional.v
theories/Spec_Checkpoint.v
theories/Checkpoint_proofs.v
theories/Prop_Checkpoint.v
theories/Spec_Assign.v
theories/Assign_proofs.v
theories/Prop_Assign.v
theories/Spec_Path.v
theories/Path_proofs.v
theories/Prop_Path.v
theories/HandScanM.v
theories/Spec_HandScan.v
theories/HandScan_proofs.v
theories/Prop_HandScan.v
theories/GradFunM.v
theories/Spec_GradFun.v
theories/GradFun_proofs.v
theories/Prop_GradFun.v
theories/TrainLoopM.v
theories/Spec_TrainLoop.v
theories/TrainLoop_proofs.v
theories/Prop_TrainLoop.v
theories/TsLoopM.v
theories/Spec_TsLoop.v
theories/TsLoop_proofs.v
theories/Prop_TsLoop.v
theories/NestM.v
theories/Spec_Nest.v
theories/Nest_proofs.v
theories/Prop_Nest.v
theories/ThreadsM.v
theories/Spec_Threads.v
theories/Threads_proofs.v
theories/Prop_Threads.v
theories/SnapshotM.v
theories/Spec_Snapshot.v
theories/Snapshot_proofs.v
theories/Prop_Snapshot.v
theories/WritersM.v
theories/Spec_Writers.v
theories/Writers_proofs.v
theories/Prop_Writers.v
theories/Spec_ScanCalls.v
theories/ScanPair_proofs.v
theories/Prop_NestScan.v
theories/RngNestM.v
theories/Spec_RngNest.v
theories/RngNest_proofs.v
theories/Prop_RngNest.v
theories/Prop_NestCtx.v
theories/Spec_Capture.v
theories/Capture_proofs.v
theories/Prop_Capture.v
theories/Spec_Surgery.v
theories/Surgery_proofs.v
theories/Prop_Surgery.v
theories/FineTuneM.v
theories/Spec_FineTune.v
theories/FineTune_proofs.v
theories/Prop_FineTune.v
theories/SplitLoopM.v
theories/Spec_SplitLoop.v
theories/SplitLoop_proofs.v
theories/Prop_SplitLoop.v
theories/NetM.v
theories/Spec_Net.v
theories/Net_proofs.v
theories/Prop_Net.v
theories/ResumeM.v
theories/Spec_Resume.v
theories/Resume_proofs.v
theories/Prop_Resume.v
theories/TsSaveM.v
theories/Spec_TsSave.v
theories/TsSave_proofs.v
theories/TsSave2_proofs.v
theories/Ex_Serial.v
theories/Prop_TsSave.v
theories/EarlyM.v
theories/Spec_Early.v
theories/Early_proofs.v
theories/Prop_Early.v
theories/Rollback_proofs.v
theories/SkipM.v
theories/Spec_Skip.v
theories/Skip_proofs.v
theories/Prop_Skip.v
theories/TargetM.v
theories/Spec_Target.v
theories/Target_proofs.v
theories/Prop_Target.v
theories/Undo_proofs.v
theories/Spec_Address.v
theories/Address_proofs.v
theories/Prop_Address.v
theories/Spec_Order.v
theories/Order_proofs.v
theories/Prop_Order.v
theories/EnsembleM.v
theories/Spec_Ensemble.v
theories/Ensemble_proofs.v
theories/Prop_Ensemble.v
theories/Spec_Shared.v
theories/Shared_proofs.v
theories/Prop_Shared.v
theories/ManyM.v
theories/Spec_Many.v
theories/Many_proofs.v
theories/Prop_Many.v
theories/DefReprM.v
theories/Spec_DefRepr.v
theories/DefRepr_proofs.v
theories/Prop_DefRepr.v
theories/StateReprM.v
theories/Spec_StateRepr.v
theories/StateRepr_proofs.v
theories/Prop_StateRepr.v
theories/PureReprM.v
theories/Spec_PureRepr.v
theories/PureRepr_proofs.v
theories/Prop_PureRepr.v
