-Q theories Verif
theories/Base.v
theories/BaseLemmas.v
theories/IndexModel.v
theories/IndexSpec.v
theories/IndexSysModel.v
theories/IndexSysSpec.v
theories/IndexRaceModel.v
theories/IndexRaceSpec.v
theories/IndexProofs.v
theories/IndexBucket.v
theories/IndexLookup.v
theories/IndexHk.v
theories/IndexHist.v
theories/IndexRace.v
theories/IndexMain.v
theories/PIndex.v
theories/HeaderModel.v
theories/HeaderSpec.v
theories/HeaderProofs.v
theories/PHeader.v
theories/ListLemmas.v
theories/InflateSpec.v
theories/InflateProofs.v
theories/GzipModel.v
theories/GzipSpec.v
theories/GzipProofs.v
theories/GzipLarge.v
theories/PGzip.v
theories/SiloNameModel.v
theories/SiloNameSpec.v
theories/SiloNameProofs.v
theories/PSilo.v
theories/ProtoModel.v
theories/ProtoSpec.v
theories/ProtoProofs.v
theories/PProto.v
theories/VluModel.v
theories/VluSpec.v
theories/VluProofs.v
theories/PVlu.v
theories/ConfigModel.v
theories/ConfigSpec.v
theories/ConfigProofs.v
theories/PConfig.v
theories/VsbModel.v
theories/VsbSpec.v
theories/VsbProofs.v
theories/PVsb.v
theories/ProgModel.v
theories/StoreModel.v
theories/StoreToy.v
theories/StoreSpec.v
theories/StoreSysModel.v
theories/StoreWp.v
theories/StoreCalls.v
theories/StoreSys.v
theories/StoreHdr.v
theories/StoreWrite.v
theories/StoreCommit.v
theories/StoreJob.v
theories/StoreMain.v
theories/StoreGet.v
theories/StoreMk.v
theories/StoreWorld.v
theories/StoreAgain.v
theories/StoreOrigin.v
theories/StoreToyOk.v
theories/StoreWit.v
theories/StoreRuns.v
theories/StoreWit39.v
theories/StoreEnd.v
theories/PStore.v
theories/FilterModel.v
theories/FilterSpec.v
theories/FilterProofs.v
theories/FilterMain.v
theories/PFilter.v
theories/ReindexModel.v
theories/ReindexSpec.v
theories/ReindexProofs.v
theories/ReindexMain.v
theories/ReindexRuns.v
theories/PReindex.v
theories/AuditModel.v
theories/AuditSpec.v
theories/AuditProofs.v
theories/AuditMain.v
theories/AuditRuns.v
theories/PAudit.v
theories/StowModel.v
theories/StowSpec.v
theories/StowProofs.v
theories/StowInv.v
theories/StowMain.v
theories/StowTerm.v
theories/StowRuns.v
theories/PStow.v
theories/Sha256Spec.v
theories/MtreeModel.v
theories/MtreeSpec.v
theories/MtreeProofs.v
theories/MtreeMain.v
theories/MtreeRuns.v
theories/PMtree.v
theories/RebuildModel.v
theories/RebuildSpec.v
theories/RebuildProofs.v
theories/RebuildMain.v
theories/RebuildTop.v
theories/RebuildLimits.v
theories/RebuildToy.v
theories/RebuildRuns.v
theories/PRebuild.v
theories/CgiModel.v
theories/CgiSpec.v
theories/CgiMain.v
theories/CgiRuns.v
theories/PCgi.v
theories/IdsModel.v
theories/IdsSpec.v
theories/IdsMain.v
theories/IdsRuns.v
theories/PIds.v
theories/NumModel.v
theories/NumSpec.v
theories/NumMain.v
theories/NumRuns.v
theories/NumExpSpec.v
theories/NumExp.v
theories/PNum.v
theories/LiveSpec.v
theories/LiveMain.v
theories/LiveJob.v
theories/LiveToy.v
theories/LiveEnd.v
theories/LiveRuns.v
theories/PLive.v
theories/CmdModel.v
theories/CmdSpec.v
theories/CmdMain.v
theories/CmdEnd.v
theories/PCmd.v
theories/MkModel.v
theories/MkSpec.v
theories/MkMain.v
theories/MkRuns.v
theories/PMk.v
theories/GetcModel.v
theories/GetcSpec.v
theories/GetcMain.v
theories/GetcRuns.v
theories/PGetc.v
theories/FcmdModel.v
theories/FcmdSpec.v
theories/FcmdMain.v
theories/PFcmd.v
theories/OthModel.v
theories/OthSpec.v
theories/OthMain.v
theories/POth.v
theories/WhyModel.v
theories/WhySpec.v
theories/WhyMain.v
theories/WhyRuns.v
theories/PWhy.v
theories/RoomSpec.v
theories/RoomRuns.v
theories/PRoom.v
theories/BigSpec.v
theories/BigMain.v
theories/BigJob.v
theories/BigToy.v
theories/BigEnd.v
theories/BigDie.v
theories/BigShrink.v
theories/PBig.v
theories/AcmdModel.v
theories/AcmdSpec.v
theories/AcmdMain.v
theories/AcmdRuns.v
theories/PAcmd.v
theories/DirModel.v
theories/DirSpec.v
theories/DirMain.v
theories/DirEnd.v
theories/PDir.v
theories/QuoteModel.v
theories/QuoteSpec.v
theories/QuoteMain.v
theories/QuoteEnd.v
theories/PQuote.v
theories/NamesModel.v
theories/NamesSpec.v
theories/NamesMain.v
theories/PNames.v
theories/DateModel.v
theories/DateSpec.v
theories/DateMain.v
theories/PDate.v
theories/MimeModel.v
theories/MimeSpec.v
theories/MimeMain.v
theories/PMime.v
