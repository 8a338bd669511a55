-Q theories Verif
theories/Base.v
theories/GraphModel.v
theories/GraphSpec.v
theories/GraphProofs.v
theories/GraphSearch.v
theories/GraphFlow.v
theories/GraphComponents.v
theories/GraphParallel.v
theories/GraphTheorems.v
theories/GraphLifecycle.v
theories/Props_Graph.v
theories/AllocModel.v
theories/AllocSpec.v
theories/AllocProofs.v
theories/AllocFlow.v
theories/AllocTheorems.v
theories/Props_Alloc.v
theories/EncModel.v
theories/EncSpec.v
theories/EncProofs.v
theories/EncStash.v
theories/StoreModel.v
theories/StoreSpec.v
theories/StoreProofs.v
theories/StoreTheorems.v
theories/Props_Enc.v
theories/Props_Store.v
theories/KvModel.v
theories/SchemeModel.v
theories/SchemeSpec.v
theories/SchemeProofs.v
theories/Props_Scheme.v
theories/VecModel.v
theories/VecSpec.v
theories/VecProofs.v
theories/Props_Vec.v
theories/PoolModel.v
theories/PoolSpec.v
theories/PoolProofs.v
theories/Props_Pool.v
theories/CtrSpec.v
theories/Props_Ctr.v
theories/UtilsModel.v
theories/Props_Utils.v
theories/SophosModel.v
theories/SophosSpec.v
theories/SophosProofs.v
theories/Props_Sophos.v
theories/DianaModel.v
theories/DianaSpec.v
theories/DianaProofs.v
theories/DianaParallel.v
theories/Props_Diana.v
theories/JanusModel.v
theories/JanusSpec.v
theories/JanusProofs.v
theories/Props_Janus.v
theories/CuckooModel.v
theories/CuckooSpec.v
theories/CuckooProofs.v
theories/Props_Cuckoo.v
theories/AsyncModel.v
theories/AsyncProofs.v
theories/Props_Async.v
theories/PlutoModel.v
theories/PlutoSpec.v
theories/PlutoProofs.v
theories/Props_Pluto.v
theories/AioPoolModel.v
theories/AioPoolSpec.v
theories/AioPoolProofs.v
theories/Props_Aio.v
theories/AioLinuxModel.v
theories/AioLinuxProofs.v
theories/AioLinuxCount.v
theories/AioLinuxExec.v
theories/Props_AioLinux.v
theories/DbGenModel.v
theories/DbGenSpec.v
theories/DbGenProofs.v
theories/DbGenThreads.v
theories/Props_DbGen.v
theories/RunnerModel.v
theories/RunnerSpec.v
theories/Props_Runner.v
theories/ConcModel.v
theories/ConcSpec.v
theories/ConcProofs.v
theories/Props_Conc.v
theories/FloatModel.v
theories/FloatProofs.v
theories/Props_Float.v
theories/Props_DbPct.v
theories/GenFloatModel.v
theories/GenFloatProofs.v
theories/GenFloatAcc.v
theories/Props_GenFloat.v
theories/AioBufModel.v
theories/AioBufProofs.v
theories/Props_AioBuf.v
theories/FaultModel.v
theories/FaultSpec.v
theories/FaultProofs.v
theories/Props_Fault.v
theories/RaceModel.v
theories/RaceSpec.v
theories/RaceProofs.v
theories/RaceInter.v
theories/Props_Race.v
theories/KeyModel.v
theories/KeySpec.v
theories/KeyProofs.v
theories/Props_Key.v
theories/ReqModel.v
theories/ReqSpec.v
theories/Props_Req.v
theories/RmModel.v
theories/Props_Rm.v
theories/HideSpec.v
theories/HideProofs.v
theories/Props_Hide.v
theories/HideDSpec.v
theories/Props_HideD.v
theories/HideTSpec.v
theories/HideTProofs.v
theories/Props_HideT.v
theories/HideJSpec.v
theories/Props_HideJ.v
theories/SetupModel.v
theories/SetupSpec.v
theories/Props_Setup.v
theories/LifeModel.v
theories/LifeSpec.v
theories/LifeProofs.v
theories/Props_Life.v
theories/TethysLifeModel.v
theories/TethysLifeSpec.v
theories/TethysLifeProofs.v
theories/Props_TethysLife.v
theories/JanusConcModel.v
theories/JanusConcSpec.v
theories/JanusConcProofs.v
theories/Props_JanusConc.v
theories/PlutoLifeModel.v
theories/PlutoLifeSpec.v
theories/PlutoLifeProofs.v
theories/Props_PlutoLife.v
theories/GenClientModel.v
theories/GenClientSpec.v
theories/GenClientProofs.v
theories/GenClientLogs.v
theories/Props_GenClient.v
theories/PowerModel.v
theories/PowerSpec.v
theories/PowerProofs.v
theories/Props_Power.v
theories/StreamModel.v
theories/StreamSpec.v
theories/StreamProofs.v
theories/Props_Stream.v
theories/TethysCtrModel.v
theories/TethysCtrSpec.v
theories/TethysCtrProofs.v
theories/Props_TethysCtr.v
theories/SessModel.v
theories/SessSpec.v
theories/SessProofs.v
theories/Props_Sess.v
theories/ProgModel.v
theories/ProgSpec.v
theories/ProgProofs.v
theories/Props_Prog.v
theories/RawModel.v
theories/RawSpec.v
theories/Props_Raw.v
theories/LogModel.v
theories/LogSpec.v
theories/Props_Log.v
theories/LoadModel.v
theories/Props_Load.v
theories/DurModel.v
theories/DurSpec.v
theories/Props_Dur.v
theories/Props_Dur2.v
theories/OptModel.v
theories/OptSpec.v
theories/Props_Opt.v
theories/JanusDurModel.v
theories/JanusDurSpec.v
theories/Props_JanusDur.v
theories/JanusKillModel.v
theories/JanusKillSpec.v
theories/Props_JanusKill.v
theories/AdaptSpec.v
theories/AdaptProofs.v
theories/Props_Adapt.v
theories/Props_AdaptT.v
theories/GenLogModel.v
theories/GenLogSpec.v
theories/Props_GenLog.v
theories/StashCutSpec.v
theories/Props_StashCut.v
theories/OptRefModel.v
theories/OptRefSpec.v
theories/Props_OptRef.v
theories/AlignModel.v
theories/Props_Align.v
theories/StashReadSpec.v
theories/Props_StashRead.v
