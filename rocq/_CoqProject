-Q theories Verif
theories/Base.v
theories/Element.v
theories/Hash.v
theories/Sizing.v
theories/FS.v
theories/Sched.v
theories/Store.v
theories/VecStore.v
theories/DiskStore.v
theories/MmapStore.v
theories/LevelCache.v
theories/ProofModel.v
theories/ProofEq.v
theories/Tree.v
theories/Iter.v
theories/ListFacts.v
theories/HashFacts.v
theories/Spec.v
theories/SpecFacts.v
theories/SizingFacts.v
theories/SchedFacts.v
theories/ByteFacts.v
theories/StoreLaws.v
theories/RowFacts.v
theories/ChunkFacts.v
theories/BuildFacts.v
theories/BuildLoop.v
theories/StoreSpec.v
theories/FileFacts.v
theories/VecFacts.v
theories/MapLayer.v
theories/DiskFacts.v
theories/ArraySpec.v
theories/ArrayFacts.v
theories/ArrayStart.v
theories/FrameFacts.v
theories/FileSpec.v
theories/MmapFacts.v
theories/PopFacts.v
theories/TreeFacts.v
theories/ProofSpec.v
theories/ProofFacts.v
theories/TreeProofs.v
theories/TreeObs.v
theories/Builders.v
theories/BuiltFacts.v
theories/CompoundFacts.v
theories/CompoundTrees.v
theories/CompoundGroups.v
theories/CompoundBuilt.v
theories/CachedFacts.v
theories/CachedTrees.v
theories/LcReads.v
theories/ReopenFacts.v
theories/Cases.v
theories/Props_Sizing.v
theories/Props_Build.v
theories/Props_Proof.v
theories/Props_Compound.v
theories/Props_Tamper.v
theories/Props_Hash.v
theories/Props_Iter.v
theories/Props_Store.v
theories/Props_Files.v
theories/LcTrees.v
theories/CachedBuilt.v
theories/CompactFacts.v
theories/CompactTrees.v
theories/LcBuild.v
theories/LcCreate.v
theories/Props_Compact.v
theories/Props_Cached.v
theories/Props_LC.v
theories/Props_Reopen.v
theories/ReplicaFacts.v
theories/RebuildFacts.v
theories/Props_Rebuild.v
theories/Props_RebuildExact.v
theories/Props_Access.v
theories/Props_Replica.v
theories/Machine.v
theories/MachineFacts.v
theories/Props_Machine.v
theories/Addr64.v
theories/AddrFacts.v
theories/Props_Addr.v
theories/Props_AddrExact.v
theories/Ln2.v
theories/Float.v
theories/FloatFacts.v
theories/Props_Float.v
theories/AgainFacts.v
theories/Props_Again.v
theories/Props_Delete.v
theories/Props_Check.v
theories/Faults.v
theories/Stop.v
theories/LcStop.v
theories/MmStop.v
theories/FaultFacts.v
theories/Props_Fault.v
theories/OwnFile.v
theories/Props_OwnFile.v
theories/ChunkAny.v
theories/Props_Chunk.v
theories/Props_Race.v
theories/StopFacts.v
theories/Props_Stop.v
theories/LcStopFacts.v
theories/Props_LcStop.v
theories/MmStopFacts.v
theories/Props_MmStop.v
theories/Props_Power.v
theories/Recompact.v
theories/Props_Recompact.v
theories/DirSpec.v
theories/DirFacts.v
theories/Props_Directory.v
theories/Props_IterErr.v
theories/Props_IterExact.v
theories/Props_Loaded.v
theories/Props_PowerCompact.v
theories/Props_CompactSeen.v
theories/Props_Untrusted.v
theories/CompactIo.v
theories/CompactIoFacts.v
theories/Props_CompactIo.v
theories/Race.v
theories/RaceFacts.v
theories/Props_OpenRace.v
theories/HashTree.v
theories/HashTreeFacts.v
theories/Props_AnyProof.v
theories/Deref.v
theories/Props_Deref.v
theories/Props_Unique.v
theories/Props_Exact.v
theories/Props_ExactC.v
theories/LocalFacts.v
theories/Props_Local.v
theories/ReadsFacts.v
theories/Props_Reads.v
theories/BadSizes.v
theories/LyingHints.v
theories/Props_Sizes.v
theories/RowReads.v
theories/Props_Rows.v
theories/NoRange.v
theories/Props_NoRange.v
theories/LcExact.v
theories/EdgeCase.v
theories/Props_LcExact.v
theories/HashExact.v
theories/Props_HashExact.v
theories/Props_ReopenExact.v
theories/Props_FaultExact.v
theories/Props_Height.v
theories/Props_HeightExact.v
theories/Props_UniqueExact.v
theories/Props_OpenRaceExact.v
theories/Props_CompactIoExact.v
theories/Props_PowerExact.v
theories/Props_RootLast.v
theories/Props_Binds.v
theories/Props_Life.v
theories/Props_LcPower.v
theories/Props_MmPower.v
theories/Props_ProofEq.v
theories/Props_Twin.v
theories/Props_Farm.v
theories/LcDebug.v
theories/Props_LcDebug.v
theories/Props_StoreSize.v
theories/Props_LcSize.v
