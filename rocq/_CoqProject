-Q theories Verif
theories/Base.v
theories/BaseProofs.v
theories/ListLib.v
theories/MemPoolModel.v
theories/MemPoolSpec.v
theories/MemPoolProofs.v
theories/MemPoolProofs2.v
theories/MemPoolFinal.v
theories/Props_MemPool.v
theories/SobjModel.v
theories/SobjSpec.v
theories/SobjProofs.v
theories/SobjRel.v
theories/SobjSim.v
theories/SobjAttach.v
theories/SobjDetach.v
theories/SobjFinal.v
theories/SymmAllocModel.v
theories/SymmAllocProofs.v
theories/Props_Sobj.v
theories/TeamModel.v
theories/TeamSpec.v
theories/TeamProofs.v
theories/Props_Team.v
theories/LockModel.v
theories/LockProofs.v
theories/LockProofs2.v
theories/LockProofs3.v
theories/Props_Lock.v
theories/AmModel.v
theories/AmSpec.v
theories/AmProofs.v
theories/AmProofs2.v
theories/AmProofs3.v
theories/AmoModel.v
theories/AmoSpec.v
theories/AmoProofs.v
theories/AmCfgModel.v
theories/AmCfgProofs.v
theories/Props_Am.v
theories/OrderModel.v
theories/OrderSpec.v
theories/OrderProofs.v
theories/OrderProofs2.v
theories/OrderProofs3.v
theories/Props_Order.v
theories/RmaModel.v
theories/RmaSpec.v
theories/RmaProofs.v
theories/Props_Rma.v
theories/AsetModel.v
theories/AsetSpec.v
theories/AsetProofs.v
theories/Props_Aset.v
theories/CollModel.v
theories/CollSpec.v
theories/CollProofs.v
theories/Props_Coll.v
theories/EnvModel.v
theories/EnvSpec.v
theories/EnvProofs.v
theories/Props_Env.v
theories/P2pModel.v
theories/P2pSpec.v
theories/P2pProofs.v
theories/Props_P2p.v
theories/SchedModel.v
theories/SchedSpec.v
theories/SchedProofs.v
theories/CtxModel.v
theories/CtxSpec.v
theories/CtxProofs.v
theories/Props_Ctx.v
theories/HeapModel.v
theories/HeapSpec.v
theories/HeapProofs.v
theories/HeapProofs2.v
theories/HeapProofs3.v
theories/Props_Heap.v
theories/AmLiveSpec.v
theories/AmLiveProofs.v
theories/AmLiveProofs2.v
theories/AmLiveProofs3.v
theories/Props_AmLive.v
theories/ProgModel.v
theories/ProgSpec.v
theories/ProgProofs.v
theories/ProgProofs2.v
theories/Props_Prog.v
theories/DataModel.v
theories/DataSpec.v
theories/DataProofs.v
theories/DataProofs2.v
theories/Props_Data.v
theories/DirModel.v
theories/DirSpec.v
theories/DirProofs.v
theories/Props_Dir.v
theories/RaceSpec.v
theories/RaceProofs.v
theories/CritModel.v
theories/CritSpec.v
theories/CritProofs.v
theories/CritProofs2.v
theories/Props_Race.v
theories/ResModel.v
theories/ResSpec.v
theories/ResProofs.v
theories/ResProofs2.v
theories/ResProofs3.v
theories/Props_Res.v
theories/LkModel.v
theories/LkSpec.v
theories/LkProofs.v
theories/Props_Lk.v
theories/PubModel.v
theories/PubSpec.v
theories/PubProofs.v
theories/PubProofs2.v
theories/PubProofs3.v
theories/Props_Pub.v
theories/StopModel.v
theories/StopSpec.v
theories/StopProofs.v
theories/Props_Stop.v
theories/UlModel.v
theories/UlSpec.v
theories/UlProofs.v
theories/Props_Ul.v
theories/GenData.v
theories/GenModel.v
theories/GenSpec.v
theories/GenProofs.v
theories/GenProofs2.v
theories/Props_Gen.v
theories/DlModel.v
theories/DlSpec.v
theories/DlProofs.v
theories/DlProofs2.v
theories/DlProofs3.v
theories/DlProofs4.v
theories/DlProofs5.v
theories/DlProofs6.v
theories/DlProofs7.v
theories/DlProofs8.v
theories/Props_Dl.v
theories/GpuModel.v
theories/GpuSpec.v
theories/GpuProofs.v
theories/Props_Gpu.v
theories/BufModel.v
theories/BufSpec.v
theories/BufProofs.v
theories/Props_Buf.v
theories/WinModel.v
theories/WinSpec.v
theories/WinProofs.v
theories/Props_Win.v
theories/OptModel.v
theories/OptSpec.v
theories/OptProofs.v
theories/Props_Opt.v
theories/BigProofs.v
theories/Props_Big.v
theories/HandData.v
theories/HandModel.v
theories/HandSpec.v
theories/HandProofs.v
theories/Props_Hand.v
theories/TobjModel.v
theories/TobjSpec.v
theories/TobjProofs.v
theories/TobjProofs2.v
theories/Props_Tobj.v
theories/ZeModel.v
theories/ZeSpec.v
theories/ZeProofs.v
theories/Props_Ze.v
theories/MpitModel.v
theories/MpitSpec.v
theories/MpitProofs.v
theories/Props_Mpit.v
theories/CfgModel.v
theories/CfgSpec.v
theories/CfgProofs.v
theories/CfgProofs2.v
theories/Props_Cfg.v
theories/CsModel.v
theories/CsSpec.v
theories/CsProofs.v
theories/CsProofs2.v
theories/Props_Cs.v
theories/PktModel.v
theories/PktSpec.v
theories/PktProofs.v
theories/PktProofs2.v
theories/Props_Pkt.v
theories/PktAmoModel.v
theories/PktAmoSpec.v
theories/PktAmoProofs.v
theories/Props_PktAmo.v
theories/PktRmaModel.v
theories/PktRmaSpec.v
theories/PktRmaProofs.v
theories/Props_PktRma.v
theories/PktSymModel.v
theories/PktSymProofs.v
theories/Props_PktSym.v
theories/PrwModel.v
theories/PrwSpec.v
theories/PrwProofs.v
theories/Props_Prw.v
theories/InfoModel.v
theories/InfoSpec.v
theories/InfoProofs.v
theories/Props_Info.v
theories/GenSizedData.v
theories/GenSizedModel.v
theories/GenSizedSpec.v
theories/GenSizedProofs.v
theories/Props_GenSized.v
theories/AsmModel.v
theories/AsmSpec.v
theories/AsmProofs.v
theories/Props_Asm.v
