-Q theories Verif
theories/Base.v
theories/Crc32Table.v
theories/Crc32Model.v
theories/Crc32Spec.v
theories/Crc32Proofs.v
theories/Crc32Props.v
theories/LogFormatModel.v
theories/LogWriterModel.v
theories/LogSpec.v
theories/LogFormatProofs.v
theories/LogWriterProofs.v
theories/LogDamageProofs.v
theories/LogDamage2Proofs.v
theories/LogProps.v
theories/KeyModel.v
theories/KeyProofs.v
theories/KeyProps.v
theories/EndianModel.v
theories/EndianProofs.v
theories/FileModel.v
theories/FileProofs.v
theories/MetaModel.v
theories/MetaProofs.v
theories/MetaProps.v
theories/BloomModel.v
theories/BloomProofs.v
theories/BloomProps.v
theories/LogManifestModel.v
theories/LogManifestProofs.v
theories/LogManifest2Proofs.v
theories/LogManifestProps.v
theories/TableManifestModel.v
theories/TableManifestProofs.v
theories/TableManifestProps.v
theories/MemTableModel.v
theories/MemTableProofs.v
theories/LogMgrModel.v
theories/LogMgrProofs.v
theories/LogMgrProofs2.v
theories/LogMgrProofs3.v
theories/DbModel.v
theories/DbProofs.v
theories/DbProofs2.v
theories/DbProps.v
theories/LsmModel.v
theories/LsmProofs.v
theories/LsmProofs2.v
theories/LsmProofs3.v
theories/LsmProofs4.v
theories/LsmProofs5.v
theories/LsmProps.v
theories/MergeModel.v
theories/MergeProofs.v
theories/MergeProofs2.v
theories/MergeProps.v
theories/LsmFailProofs.v
theories/LsmFailProps.v
theories/FullModel.v
theories/FullProofs.v
theories/FullProps.v
theories/IterModel.v
theories/IterSpec.v
theories/IterProofs.v
theories/LeafIterModel.v
theories/LeafIterProofs.v
theories/DbIterModel.v
theories/DbIterProofs.v
theories/DbIterProofs2.v
theories/DbIterProofs3.v
theories/DbIterProofs4.v
theories/DbIterProofs5.v
theories/IterCheck.v
theories/IterProps.v
theories/SeqIterModel.v
theories/SeqIterProofs.v
theories/SeqIterProps.v
theories/LiveIterModel.v
theories/LiveIterProofs.v
theories/LiveIterProps.v
theories/NearestModel.v
theories/NearestSpec.v
theories/NearestProofs.v
theories/NearestProps.v
theories/PrefixModel.v
theories/PrefixSpec.v
theories/PrefixProofs.v
theories/PrefixSnapProofs.v
theories/PrefixProps.v
theories/BoosterModel.v
theories/BoosterSpec.v
theories/BoosterProofs.v
theories/BoosterProps.v
theories/NumberModel.v
theories/NumberProofs.v
theories/NumberProps.v
theories/RefCountModel.v
theories/RefCountProofs.v
theories/RefCountProps.v
theories/SnapRefModel.v
theories/SnapRefProps.v
theories/GlobalBatchModel.v
theories/GlobalBatchProofs.v
theories/GlobalVisProofs.v
theories/GlobalBatchProps.v
theories/CheckpointModel.v
theories/CheckpointSpec.v
theories/CheckpointProofs.v
theories/CheckpointProofs2.v
theories/Checkpoint3Proofs.v
theories/Checkpoint4Proofs.v
theories/CheckpointProps.v
theories/FlusherModel.v
theories/FlusherSpec.v
theories/FlusherProofs.v
theories/FlusherProps.v
theories/ThrottleModel.v
theories/ThrottleProps.v
theories/TableLockModel.v
theories/TableLockProofs.v
theories/TableLock2Proofs.v
theories/TableLockProps.v
theories/DirectIOModel.v
theories/DirectIOSpec.v
theories/DirectIOProofs.v
theories/DirectIOLogProofs.v
theories/DirectIOProps.v
theories/RollbackModel.v
theories/RollbackSpec.v
theories/RollbackProofs.v
theories/RollbackProofs2.v
theories/RollbackProofs3.v
theories/RollbackProofs4.v
theories/RollbackRefModel.v
theories/RollbackRefProofs.v
theories/RollbackProps.v
theories/RecoverModel.v
theories/RecoverProofs.v
theories/RecoverProofs2.v
theories/RecoverProofs3.v
theories/RecoverProofs4.v
theories/RecoverProofs5.v
theories/RecoverProofs6.v
theories/RecoverProofs7.v
theories/RecoverProofs8.v
theories/RecoverProofs9.v
theories/RecoverProofs10.v
theories/RecoverSpec.v
theories/RecoverProps.v
theories/SkipModel.v
theories/SkipSpec.v
theories/SkipProofs.v
theories/SkipProofs2.v
theories/SkipProofs3.v
theories/SkipProofs4.v
theories/SkipProps.v
theories/RwLockModel.v
theories/RwLockProofs.v
theories/RwLockProps.v
theories/AvlModel.v
theories/AvlSpec.v
theories/AvlProofs.v
theories/AvlProofs2.v
theories/AvlProofs3.v
theories/AvlProofs4.v
theories/AvlProofs5.v
theories/AvlProofs6.v
theories/AvlProofs7.v
theories/AvlProofs8.v
theories/AvlProps.v
theories/HandleModel.v
theories/HandleProofs.v
theories/HandleProps.v
theories/WorkerModel.v
theories/WorkerSpec.v
theories/WorkerRegModel.v
theories/WorkerProofs.v
theories/Worker2Proofs.v
theories/Worker3Proofs.v
theories/Worker4Proofs.v
theories/WorkerProps.v
theories/TableWriterModel.v
theories/TableWriterSpec.v
theories/TableWriterProofs.v
theories/TableWriterProps.v
theories/DbGroupModel.v
theories/DbGroupSpec.v
theories/DbGroupProofs.v
theories/DbGroupProps.v
theories/BuilderModel.v
theories/BuilderSpec.v
theories/BuilderProofs.v
theories/BuilderProofs2.v
theories/BuilderProps.v
theories/TimerModel.v
theories/TimerSpec.v
theories/TimerProofs.v
theories/TimerProps.v
theories/AdjustModel.v
theories/AdjustSpec.v
theories/AdjustProofs.v
theories/AdjustProps.v
theories/SamplerModel.v
theories/SamplerProofs.v
theories/SamplerProps.v
theories/ReaderModel.v
theories/ReaderSpec.v
theories/ReaderProofs.v
theories/ReaderProofs2.v
theories/ReaderProofs3.v
theories/ReaderProofs4.v
theories/ReaderProps.v
theories/RepairModel.v
theories/RepairSpec.v
theories/RepairProofs.v
theories/RepairProofs2.v
theories/RepairProofs3.v
theories/RepairProps.v
theories/ReadOnlyModel.v
theories/ReadOnlySpec.v
theories/ReadOnlyProofs.v
theories/ReadOnlyProps.v
theories/ReclaimModel.v
theories/ReclaimSpec.v
theories/ReclaimProofs.v
theories/ReclaimProofs2.v
theories/ReclaimProofs3.v
theories/ReclaimProps.v
theories/SyncRaceModel.v
theories/SyncRaceSpec.v
theories/SyncRaceProofs.v
theories/SyncRaceProofs2.v
theories/SyncRaceProofs3.v
theories/SyncRaceProofs4.v
theories/SyncRaceProofs5.v
theories/SyncRaceProps.v
theories/GetRaceModel.v
theories/GetRaceSpec.v
theories/GetRaceProofs.v
theories/GetRaceProofs2.v
theories/GetRaceProofs3.v
theories/GetRaceProofs4.v
theories/GetRaceProps.v
theories/FlushRaceModel.v
theories/FlushRaceSpec.v
theories/FlushRaceProofs.v
theories/FlushRaceProps.v
theories/BufModel.v
theories/BufSpec.v
theories/BufProofs.v
theories/BufProofs2.v
theories/BufProps.v
theories/RollCrashModel.v
theories/RollCrashSpec.v
theories/RollCrashProofs.v
theories/RollCrashProps.v
theories/DiscardModel.v
theories/DiscardSpec.v
theories/DiscardProofs.v
theories/DiscardProps.v
theories/GroupLifeModel.v
theories/GroupLifeSpec.v
theories/GroupLifeProofs.v
theories/GroupLifeProps.v
theories/SeqInfoModel.v
theories/SeqInfoSpec.v
theories/SeqInfoProofs.v
theories/SeqInfoProps.v
theories/BgCloseModel.v
theories/BgCloseSpec.v
theories/BgCloseProofs.v
theories/BgCloseProps.v
theories/EndianOrder.v
theories/EndianProps.v
theories/DupOpenModel.v
theories/DupOpenSpec.v
theories/DupOpenProofs.v
theories/DupOpenProps.v
theories/VictimModel.v
theories/VictimSpec.v
theories/VictimProofs.v
theories/VictimProps.v
theories/L0CondModel.v
theories/L0CondSpec.v
theories/L0CondProofs.v
theories/L0CondProps.v
theories/ForeignMetaSpec.v
theories/ForeignMetaProofs.v
theories/ForeignMetaProps.v
