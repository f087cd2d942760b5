-Q theories Verif
theories/Base/Loops.v
theories/Base/QcLemmas.v
theories/Base/QcLib.v
theories/Base/RLib.v
theories/Base/Res.v
theories/Base/ResLemmas.v
theories/Model/MArea.v
theories/Model/MBind.v
theories/Model/MCalls.v
theories/Model/MConfig.v
theories/Model/MCountCalls.v
theories/Model/MCupy.v
theories/Model/MFit.v
theories/Model/MFloat.v
theories/Model/MFoot.v
theories/Model/MGpu.v
theories/Model/MHybridCalls.v
theories/Model/MImage.v
theories/Model/MImageCalls.v
theories/Model/MInput.v
theories/Model/MInt.v
theories/Model/MLimits.v
theories/Model/MMachine.v
theories/Model/MMulti.v
theories/Model/MMultiCalls.v
theories/Model/MObjects.v
theories/Model/MOldCalls.v
theories/Model/MOldSteps.v
theories/Model/MOmp.v
theories/Model/MOutput.v
theories/Model/MParticles.v
theories/Model/MPost.v
theories/Model/MPreproc.v
theories/Model/MPrograms.v
theories/Model/MRecon.v
theories/Model/MRun.v
theories/Model/MSelf.v
theories/Model/MSin.v
theories/Model/MSteps.v
theories/Model/MTomoCalls.v
theories/Model/MTrack.v
theories/Spec/AreaSpec.v
theories/Spec/BindSpec.v
theories/Spec/CallsSpec.v
theories/Spec/ConfigSpec.v
theories/Spec/CountCallsSpec.v
theories/Spec/FitSpec.v
theories/Spec/FloatSpec.v
theories/Spec/FootSpec.v
theories/Spec/HybridCallsSpec.v
theories/Spec/ImageCallsSpec.v
theories/Spec/InputSpec.v
theories/Spec/IntSpec.v
theories/Spec/LimitsSpec.v
theories/Spec/MachineSpec.v
theories/Spec/MultiCallsSpec.v
theories/Spec/MultiSpec.v
theories/Spec/ObjectSpec.v
theories/Spec/OldCallsSpec.v
theories/Spec/OmpSpec.v
theories/Spec/OutputSpec.v
theories/Spec/ParticleSpec.v
theories/Spec/PostSpec.v
theories/Spec/PreprocSpec.v
theories/Spec/ProgramsSpec.v
theories/Spec/ReconSpec.v
theories/Spec/RunSpec.v
theories/Spec/ScanSpec.v
theories/Spec/SelfSpec.v
theories/Spec/SineSpec.v
theories/Spec/StepsSpec.v
theories/Spec/SymSpec.v
theories/Spec/TomoCallsSpec.v
theories/Spec/TomoSpec.v
theories/Spec/TrackSpec.v
theories/Proof/CArea.v
theories/Proof/CArea2.v
theories/Proof/CArea3.v
theories/Proof/CArea4.v
theories/Proof/CBind.v
theories/Proof/CCalls.v
theories/Proof/CConfig.v
theories/Proof/CCount.v
theories/Proof/CCountCalls.v
theories/Proof/CFields.v
theories/Proof/CFit.v
theories/Proof/CFloat.v
theories/Proof/CFoot.v
theories/Proof/CGpu.v
theories/Proof/CHistory.v
theories/Proof/CHybridCalls.v
theories/Proof/CImage.v
theories/Proof/CImageCalls.v
theories/Proof/CInput.v
theories/Proof/CInt.v
theories/Proof/CLimits.v
theories/Proof/CMachine.v
theories/Proof/CMulti.v
theories/Proof/CMultiCalls.v
theories/Proof/CObjects.v
theories/Proof/COldCalls.v
theories/Proof/COldSteps.v
theories/Proof/COmp.v
theories/Proof/COutput.v
theories/Proof/CParticles.v
theories/Proof/CPhi12.v
theories/Proof/CPost.v
theories/Proof/CPreproc.v
theories/Proof/CPrograms.v
theories/Proof/CRecon.v
theories/Proof/CRun.v
theories/Proof/CSelf.v
theories/Proof/CSin.v
theories/Proof/CSteps.v
theories/Proof/CSym.v
theories/Proof/CTomoCalls.v
theories/Proof/CTrack.v
theories/Proof/PArea.v
theories/Proof/PArea2.v
theories/Proof/PArea3.v
theories/Proof/PBind.v
theories/Proof/PCalls.v
theories/Proof/PCalls2.v
theories/Proof/PCalls3.v
theories/Proof/PCountCalls.v
theories/Proof/PCupy.v
theories/Proof/PCupyTrack.v
theories/Proof/PFit.v
theories/Proof/PFloat.v
theories/Proof/PFloat2.v
theories/Proof/PFloat3.v
theories/Proof/PFoot.v
theories/Proof/PGpu.v
theories/Proof/PGpu2.v
theories/Proof/PGpu3.v
theories/Proof/PHybrid.v
theories/Proof/PHybridCalls.v
theories/Proof/PImageCalls.v
theories/Proof/PInput.v
theories/Proof/PInt.v
theories/Proof/PInt2.v
theories/Proof/PLimits.v
theories/Proof/PMachine.v
theories/Proof/PMulti.v
theories/Proof/PMulti2.v
theories/Proof/PMultiCalls.v
theories/Proof/POmp.v
theories/Proof/POmp2.v
theories/Proof/POmp3.v
theories/Proof/POmp4.v
theories/Proof/POutput.v
theories/Proof/PParticles.v
theories/Proof/PPoly.v
theories/Proof/PPost.v
theories/Proof/PPreproc.v
theories/Proof/PPrograms.v
theories/Proof/PPrograms2.v
theories/Proof/PRecon.v
theories/Proof/PRecon2.v
theories/Proof/PRecon3.v
theories/Proof/PRun.v
theories/Proof/PRun2.v
theories/Proof/PSelf.v
theories/Proof/PSin.v
theories/Proof/PSin2.v
theories/Proof/PSinTrack.v
theories/Proof/PSinf.v
theories/Proof/PSteps.v
theories/Proof/PSteps2.v
theories/Proof/PSteps3.v
theories/Proof/PSym.v
theories/Proof/PTomo.v
theories/Proof/PTomoCalls.v
theories/Proof/PTrack.v
theories/Proof/PTrack2.v
theories/Proof/PTrackGpu.v
theories/Proof/PTrackHybrid.v
theories/Proof/PWide.v
theories/Props/PropsArea.v
theories/Props/PropsArea2.v
theories/Props/PropsArea3.v
theories/Props/PropsArea4.v
theories/Props/PropsBind.v
theories/Props/PropsCalls.v
theories/Props/PropsConfig.v
theories/Props/PropsCount.v
theories/Props/PropsCountCalls.v
theories/Props/PropsFields.v
theories/Props/PropsFit.v
theories/Props/PropsFloat.v
theories/Props/PropsFoot.v
theories/Props/PropsGpu.v
theories/Props/PropsHistory.v
theories/Props/PropsHybridCalls.v
theories/Props/PropsImage.v
theories/Props/PropsImageCalls.v
theories/Props/PropsInput.v
theories/Props/PropsInt.v
theories/Props/PropsLimits.v
theories/Props/PropsMachine.v
theories/Props/PropsMulti.v
theories/Props/PropsMultiCalls.v
theories/Props/PropsObjects.v
theories/Props/PropsOldCalls.v
theories/Props/PropsOldSteps.v
theories/Props/PropsOmp.v
theories/Props/PropsOutput.v
theories/Props/PropsParticles.v
theories/Props/PropsPhi12.v
theories/Props/PropsPost.v
theories/Props/PropsPreproc.v
theories/Props/PropsPrograms.v
theories/Props/PropsRecon.v
theories/Props/PropsRun.v
theories/Props/PropsSelf.v
theories/Props/PropsSin.v
theories/Props/PropsSteps.v
theories/Props/PropsSym.v
theories/Props/PropsTomoCalls.v
theories/Props/PropsTrack.v
