-Q theories Verif

theories/Word.v
theories/Machine.v
theories/ModelBare.v
theories/ModelHash.v
theories/ModelInl.v
theories/ModelRegions.v
theories/ModelMetadata.v
theories/ModelEnclave.v
theories/ModelBoot.v
theories/ModelApi.v
theories/Lib.v
theories/Trace.v
theories/SpecPageTable.v
theories/BareProofs.v
theories/PageProofs.v
theories/P_Bare.v
theories/SpecSha256.v
theories/HashProofs.v
theories/SpecMeasure.v
theories/MeasureProofs.v
theories/P_Hash.v
theories/BootProofs.v
theories/SpecGeometry.v
theories/GeomProofs.v
theories/P_Boot.v
theories/SpecMonitor.v
theories/ViewProofs.v
theories/SeqProofs.v
theories/SeqCalls.v
theories/SeqCalls2.v
theories/SeqCalls3.v
theories/SeqCalls4.v
theories/SeqCalls5.v
theories/SeqCalls6.v
theories/SeqCalls7.v
theories/SpecHistory.v
theories/HistoryProofs.v
theories/HistoryFacts.v
theories/P_Regions.v
theories/P_Dma.v
theories/SpecMetadata.v
theories/MetaProofs.v
theories/MetaProofs2.v
theories/P_Metadata.v
theories/P_Enclave.v
theories/SpecConcurrent.v
theories/ConcProofs.v
theories/ConcCalls.v
theories/ConcCalls2.v
theories/ConcGlobal.v
theories/ConcBound.v
theories/LoopProofs.v
theories/P_Conc.v
theories/SpecAtomic.v
theories/AtomicProofs.v
theories/P_Atomic.v
theories/SpecLinear.v
theories/LinProofs.v
theories/LinOps.v
theories/LinCalls.v
theories/LinCalls2.v
theories/LinGlobal.v
theories/P_Linear.v
theories/SpecInside.v
theories/InsideProofs.v
theories/P_Inside.v
theories/SpecContract.v
theories/ContractProofs.v
theories/ContractProofs2.v
theories/P_Contract.v
theories/P_Contract2.v
theories/ContractProofs3.v
theories/ContractProofs4.v
theories/P_Contract3.v
theories/SpecSystem.v
theories/SystemProofs.v
theories/P_System.v
theories/SpecContract2.v
theories/ContractProofs5.v
theories/P_Contract4.v
theories/ModelPhys.v
theories/SpecPhys.v
theories/P_Phys.v
theories/FootProofs.v
theories/P_Positive.v
theories/SpecContract3.v
theories/P_Accept.v
theories/SpecSecret.v
theories/SecretProofs.v
theories/P_Secret.v
theories/SpecRest.v
theories/P_Rest.v
theories/P_Rest2.v
theories/P_Rest3.v
theories/SpecTouch.v
theories/TouchProofs.v
theories/P_Touch.v
theories/P_Touch2.v
theories/P_Secret2.v
theories/SpecBoot.v
theories/BootProofs2.v
theories/P_Platform.v
theories/SpecAccess.v
theories/P_Access.v
theories/SpecContract4.v
theories/ContractProofs6.v
theories/P_Thread.v
theories/P_Contract5.v
theories/SpecContract5.v
theories/ContractProofs7.v
theories/P_Contract6.v
theories/SpecContract6.v
theories/P_Accept2.v
theories/SpecUndefined.v
theories/P_Undefined.v
theories/SpecCommute.v
theories/P_Commute.v
theories/SpecRefuse.v
theories/RefuseProofs.v
theories/P_Refuse.v
theories/P_Record.v
theories/SpecTlb.v
theories/P_Tlb.v
theories/P_Handover.v
theories/ModelRiscv.v
theories/P_Riscv.v
theories/SpecShootdown.v
theories/P_Shootdown.v
theories/SpecPattern.v
theories/P_Pattern.v
theories/CostProofs.v
theories/SpecCost.v
theories/P_Cost.v
theories/SpecCache.v
theories/P_Cache.v
theories/SpecAlign.v
theories/AlignProofs.v
theories/P_Align.v
