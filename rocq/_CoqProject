-Q theories Verif
theories/Base.v
theories/DataType.v
theories/Json.v
theories/Meta.v
theories/BBox.v
theories/CoordIter.v
theories/Chunk.v
theories/Path.v
theories/FS.v
theories/MetaJson.v
theories/Hier.v
theories/Sys.v
theories/Lz.v
theories/Nd.v
theories/SysNd.v
theories/Spec.v
theories/SpecMeta.v
theories/SpecLz.v
theories/BaseFacts.v
theories/DataTypeFacts.v
theories/MetaFacts.v
theories/ChunkFacts.v
theories/BBoxFacts.v
theories/CoordIterFacts.v
theories/PathFacts.v
theories/FSFacts.v
theories/KeyFacts.v
theories/HierFacts.v
theories/LzFacts.v
theories/HistFacts.v
theories/ContainFacts.v
theories/StoreFacts.v
theories/NdFacts.v
theories/NdWrite.v
theories/NdSafe.v
theories/FillFacts.v
theories/JsonFacts.v
theories/JsonPrefix.v
theories/MetaJsonFacts.v
theories/NodeFacts.v
theories/SpecHier.v
theories/RefFacts.v
theories/OpsFacts.v
theories/OpenFacts.v
theories/SpecSys.v
theories/SysFacts.v
theories/SysOps.v
theories/SysNdOps.v
theories/CrashFacts.v
theories/CrashOps.v
theories/SpecFull.v
theories/CrashMeta.v
theories/FullMeta.v
theories/CrashOpen.v
theories/CrashRegion.v
theories/SysWit.v
theories/SpecConc.v
theories/ConcFacts.v
theories/ConcOps.v
theories/ConcChunk.v
theories/ConcLive.v
theories/ConcMeta.v
theories/ConcKeep.v
theories/ConcGone.v
theories/ConcNode.v
theories/ConcWit.v
theories/HierWit.v
theories/SpecList.v
theories/ListFacts.v
theories/ListEquiv.v
theories/Props_Chunk.v
theories/Props_DataType.v
theories/Props_Grid.v
theories/Props_Iter.v
theories/Props_Store.v
theories/Props_Keys.v
theories/Props_Nd.v
theories/Props_Meta.v
theories/Props_Hier.v
theories/Props_List.v
theories/Props_Crash.v
theories/SpecShare.v
theories/ConcOwn.v
theories/ConcShare.v
theories/ConcRegion.v
theories/ShareLive.v
theories/RegionPure.v
theories/ConcVoxel.v
theories/ShareWit.v
theories/Props_Region.v
theories/Props_Share.v
theories/Props_Voxel.v
theories/Props_Conc.v
theories/Props_Gone.v
theories/SpecConcList.v
theories/ConcList.v
theories/ConcListWit.v
theories/Props_ConcList.v
theories/Attrs.v
theories/SpecAttrs.v
theories/AttrsFacts.v
theories/Props_Attrs.v
theories/SpecLin.v
theories/ConcLin.v
theories/SpecAttr.v
theories/ConcLog.v
theories/ConcAttr.v
theories/AttrFacts.v
theories/Props_Lin.v
theories/Props_Attr.v
theories/SpecKeep.v
theories/VoxelLog.v
theories/KeepFacts.v
theories/Props_Keep.v
theories/SnapFacts.v
theories/Props_Snap.v
theories/SysOpen.v
theories/SpecOpen.v
theories/ConcOpen.v
theories/OpenLive.v
theories/Props_Open.v
theories/Props_Full.v
theories/SpecRemove.v
theories/SysRemove.v
theories/SysList.v
theories/CrashRemove.v
theories/Props_Remove.v
theories/Props_Lz.v
theories/SpecJson.v
theories/JsonGrammar.v
theories/SpecDoc.v
theories/DocFacts.v
theories/Props_Doc.v
theories/SpecPlace.v
theories/PlaceFacts.v
theories/Props_Place.v
theories/SpecFiles.v
theories/FilesFacts.v
theories/Props_Files.v
theories/SpecVox.v
theories/VoxFacts.v
theories/Props_Vox.v
theories/CopyFacts.v
theories/Props_Copy.v
theories/DeepFacts.v
theories/Props_Deep.v
theories/SpecFault.v
theories/FaultFacts.v
theories/FaultVisible.v
theories/Props_Fault.v
theories/GenHier.v
theories/SpecStore.v
theories/GenFacts.v
theories/GenSim.v
theories/GenList.v
theories/Props_GenStore.v
theories/NdView.v
theories/NdViewFacts.v
theories/Props_View.v
theories/GenNd.v
theories/SpecGenNd.v
theories/GenNdFacts.v
theories/Props_GenNd.v
theories/SpecOver.v
theories/OverflowFacts.v
theories/BorderFacts.v
theories/Props_Over.v
theories/RepoTests.v
theories/SpecKill.v
theories/KillOps.v
theories/KillFacts.v
theories/KillNode.v
theories/KillNew.v
theories/KillVoxel.v
theories/Props_Kill.v
theories/RankFacts.v
theories/Props_Rank.v
theories/FailFacts.v
theories/Props_Fail.v
theories/EmptyFacts.v
theories/Props_Empty.v
theories/ExistFacts.v
theories/Props_Exist.v
