-Q theories Verif
theories/Base.v
theories/GmModel.v
theories/GmSpec.v
theories/GmInv.v
theories/GmProofs.v
theories/GmFactors.v
theories/GmValues.v
theories/GmHist.v
theories/GmKeys.v
theories/GmStereo.v
theories/GmIds.v
theories/GmReach.v
theories/GmReady.v
theories/GmLandmarks.v
theories/GmExamples.v
theories/GmReadyEx.v
theories/Props_Gm.v
theories/BeModel.v
theories/BeSpec.v
theories/BeProofs.v
theories/BeEff.v
theories/BeAbs.v
theories/BeInv.v
theories/BeSect.v
theories/BeHealthy.v
theories/BeLive.v
theories/BeFair.v
theories/BeFairMore.v
theories/BeMore.v
theories/BeExamples.v
theories/Props_Be.v
theories/ImuModel.v
theories/ImuSpec.v
theories/ImuProofs.v
theories/ImuMore.v
theories/FeModel.v
theories/FeSpec.v
theories/FeBaro.v
theories/FeProofs.v
theories/FeImu.v
theories/FeLive.v
theories/FeExamples.v
theories/Interp.v
theories/Props_Fe.v
theories/StModel.v
theories/StSpec.v
theories/StFilter.v
theories/StTrack.v
theories/StMatch.v
theories/StRun.v
theories/StEmit.v
theories/StCost.v
theories/StCostR.v
theories/StGeom.v
theories/StLink.v
theories/StExamples.v
theories/StDense.v
theories/Props_St.v
theories/Props_StR.v
theories/MapModel.v
theories/MapSpec.v
theories/MapProofs.v
theories/MapPast.v
theories/MapPast2.v
theories/MapExamples.v
theories/Props_Map.v
theories/RegModel.v
theories/RegSpec.v
theories/RegProofs.v
theories/RegMore.v
theories/RegExamples.v
theories/Props_Reg.v
theories/NetModel.v
theories/NetSpec.v
theories/NetProofs.v
theories/NetMore.v
theories/CfgModel.v
theories/CfgSpec.v
theories/CfgKeys.v
theories/CfgProofs.v
theories/CfgMore.v
theories/CfgRead.v
theories/CfgSel.v
theories/CfgExamples.v
theories/Props_Cfg.v
theories/Geo.v
theories/PcModel.v
theories/PcSpec.v
theories/PcProofs.v
theories/PcOps.v
theories/PcGeom.v
theories/PcGeomProofs.v
theories/PcFormat.v
theories/PcExamples.v
theories/Props_Pc.v
theories/Mx.v
theories/CvModel.v
theories/CvProofs.v
theories/EgModel.v
theories/EgProofs.v
theories/EgPose.v
theories/MsModel.v
theories/MsProofs.v
theories/MsPose.v
theories/EgExamples.v
theories/RegEnd.v
theories/Props_Eg.v
theories/BfModel.v
theories/BfSpec.v
theories/BfProofs.v
theories/BfLoad.v
theories/BfMain.v
theories/BfTheorems.v
theories/BfLaws.v
theories/BfCast.v
theories/BfExamples.v
theories/BfHalf.v
theories/Props_Bf.v
theories/RcGen.v
theories/RcModel.v
theories/RcSpec.v
theories/RcDeriv.v
theories/RcTurn.v
theories/RcPtDx.v
theories/RcPtDz.v
theories/RcPlDx.v
theories/RcPlDz.v
theories/RcProofs.v
theories/RcComp.v
theories/RcMat.v
theories/RcCov.v
theories/RcEst.v
theories/RcMain.v
theories/RcRegModel.v
theories/RcRegSpec.v
theories/RcReg.v
theories/RcTop.v
theories/RcExamples.v
theories/RcFlip.v
theories/Props_Rc.v
theories/CamModel.v
theories/CamSpec.v
theories/CamProofs.v
theories/CamMore.v
theories/CamNodes.v
theories/CamExamples.v
theories/Props_Cam.v
theories/RoModel.v
theories/RoSpec.v
theories/RoProofs.v
theories/RoExamples.v
theories/Props_Ro.v
theories/TfModel.v
theories/TfSpec.v
theories/TfProofs.v
theories/TfExamples.v
theories/DiModel.v
theories/DiSpec.v
theories/DiProofs.v
theories/DiExamples.v
theories/Props_Tf.v
theories/NvModel.v
theories/NvSpec.v
theories/NvProofs.v
theories/NvExamples.v
theories/Props_Nv.v
theories/MtModel.v
theories/MtSpec.v
theories/MtProofs.v
theories/MtExamples.v
theories/RpModel.v
theories/RpSpec.v
theories/RpProofs.v
theories/RpExamples.v
theories/Props_Mt.v
theories/FoModel.v
theories/FoSpec.v
theories/FoLive.v
theories/FoProofs.v
theories/FoExamples.v
theories/Props_Fo.v
theories/WrModel.v
theories/WrSpec.v
theories/WrProofs.v
theories/WrTheorems.v
theories/WrExamples.v
theories/Props_Wr.v
theories/LpModel.v
theories/LpSpec.v
theories/LpProofs.v
theories/LpInv.v
theories/LpLive.v
theories/LpExamples.v
theories/LpFairSpec.v
theories/LpFair.v
theories/LpFairEx.v
theories/Props_Lp.v
theories/FlModel.v
theories/FlProofs.v
theories/FlWitness.v
theories/FlMore.v
theories/FlExamples.v
theories/Props_Fl.v
theories/EvModel.v
theories/EvSpec.v
theories/EvProofs.v
theories/EvPose.v
theories/EvMove.v
theories/EvInter.v
theories/EvAlign.v
theories/EvSelf.v
theories/EvTrack.v
theories/EvExamples.v
theories/Props_Ev.v
theories/EvData.v
theories/EvDataSpec.v
theories/EvDataProofs.v
theories/EvDataMore.v
theories/EvDataEx.v
theories/Props_EvD.v
theories/LkModel.v
theories/LkSpec.v
theories/LkProofs.v
theories/LkNode.v
theories/LkPipe.v
theories/LkExamples.v
theories/LkPipeEx.v
theories/Props_Lk.v
theories/PlModel.v
theories/PlSpec.v
theories/PlProofs.v
theories/PlStuck.v
theories/PlFairSpec.v
theories/PlFair.v
theories/PlExamples.v
theories/PlFairEx.v
theories/Props_Pl.v
theories/FcModel.v
theories/FcSpec.v
theories/FcProofs.v
theories/FcExamples.v
theories/MsnData.v
theories/MsnModel.v
theories/MsnSpec.v
theories/MsnProofs.v
theories/MsnMore.v
theories/MsnExamples.v
theories/Props_Msn.v
theories/Props_Fc.v
theories/EcModel.v
theories/EcSpec.v
theories/EcProofs.v
theories/EcMore.v
theories/EcExamples.v
theories/LnModel.v
theories/LnSpec.v
theories/LnProofs.v
theories/LnMore.v
theories/LnPlat.v
theories/LnExamples.v
theories/Props_Ln.v
theories/Props_Ec.v
theories/DaModel.v
theories/DaProofs.v
theories/DaExamples.v
theories/Props_Da.v
theories/FgModel.v
theories/FgSpec.v
theories/FgProofs.v
theories/FgSave.v
theories/FgCloud.v
theories/FgExamples.v
theories/Props_Fg.v
theories/JgModel.v
theories/JgSpec.v
theories/JgProofs.v
theories/JgDrawn.v
theories/Props_Jg.v
theories/KgModel.v
theories/KgSpec.v
theories/KgProofs.v
theories/KgDrawn.v
theories/Props_Kg.v
theories/GtModel.v
theories/GtSpec.v
theories/GtProofs.v
theories/GtExamples.v
theories/Props_Gt.v
theories/SgModel.v
theories/SgSpec.v
theories/SgProofs.v
theories/SgExamples.v
theories/Props_Sg.v
theories/BgModel.v
theories/BgSpec.v
theories/BgProofs.v
theories/BgExamples.v
theories/Props_Bg.v
theories/CgModel.v
theories/CgSpec.v
theories/CgProofs.v
theories/Props_Cg.v
theories/AnModel.v
theories/AnSpec.v
theories/AnProofs.v
theories/Props_An.v
