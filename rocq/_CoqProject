-Q theories Verif

theories/Prelude.v
theories/PreludeFacts.v
theories/NumX.v
theories/Model_Rank.v
theories/Spec_Rank.v
theories/Proof_Rank.v
theories/Proof_Deltachi2.v
theories/Model_Zfind.v
theories/Spec_Zfind.v
theories/Proof_Zfind.v
theories/Proof_Table.v
theories/Props_Rank.v
theories/Props_Zfind.v
theories/Model_Dist.v
theories/Spec_Dist.v
theories/Proof_Dist.v
theories/Proof_Dist2.v
theories/Proof_Dist3.v
theories/Props_Dist.v
theories/Model_MPI.v
theories/Proof_Ring.v
theories/Proof_Gather.v
theories/Model_MP.v
theories/Proof_MP.v
theories/Proof_MP2.v
theories/Props_Par.v
theories/Facts2.v
theories/Model_Fitz.v
theories/Spec_Fitz.v
theories/Proof_Fitz.v
theories/Proof_Fitz2.v
theories/Props_Fitz.v
theories/Model_Priors.v
theories/Spec_Priors.v
theories/Proof_Priors.v
theories/Props_Priors.v
theories/Model_Rebin.v
theories/Spec_Rebin.v
theories/Proof_Rebin.v
theories/Proof_Rebin2.v
theories/Proof_RebinGPU.v
theories/Proof_Rebin3.v
theories/Props_Rebin.v
theories/Model_Zscan.v
theories/Spec_Zscan.v
theories/Proof_Zscan.v
theories/Proof_Zscan2.v
theories/Proof_Zscan3.v
theories/Proof_Zscan4.v
theories/Proof_Zscan5.v
theories/Props_Zscan.v
theories/Props_Zscan2.v
theories/Model_Targets.v
theories/Spec_Targets.v
theories/Proof_Targets.v
theories/Proof_Targets2.v
theories/Proof_Targets3.v
theories/Proof_Targets4.v
theories/Props_Targets.v
theories/Model_Targets2.v
theories/Spec_Targets2.v
theories/Proof_Targets5.v
theories/Proof_Targets6.v
theories/Props_Targets2.v
theories/Proof_Eval.v
theories/Props_Eval.v
theories/Model_IO.v
theories/Spec_IO.v
theories/Proof_IO.v
theories/Proof_IO2.v
theories/Proof_IO3.v
theories/Proof_IO4.v
theories/Props_IO.v
theories/Model_Desi.v
theories/Spec_Desi.v
theories/Proof_Desi.v
theories/Proof_Desi2.v
theories/Proof_Desi3.v
theories/Proof_Desi4.v
theories/Props_Desi.v
theories/Props_Desi2.v
theories/Model_IGM.v
theories/Spec_IGM.v
theories/Proof_IGM.v
theories/Props_IGM.v
theories/Props_IGM2.v
theories/Model_GPU.v
theories/Spec_GPU.v
theories/Proof_GPU.v
theories/Proof_GPU2.v
theories/Proof_GPU3.v
theories/Props_GPU.v
theories/Model_Arch.v
theories/Spec_Arch.v
theories/Proof_Arch.v
theories/Proof_Arch2.v
theories/Proof_Arch3.v
theories/Props_Arch.v
theories/Spec_Arch2.v
theories/Proof_Arch4.v
theories/Proof_Arch5.v
theories/Proof_Arch6.v
theories/Proof_Arch7.v
theories/Props_Arch2.v
theories/Spec_Cosmic.v
theories/Proof_Cosmic.v
theories/Model_Tpl.v
theories/Spec_Tpl.v
theories/Proof_Tpl.v
theories/Proof_Tpl2.v
theories/Props_Tpl.v
theories/Model_Piece.v
theories/Spec_Piece.v
theories/Proof_Piece.v
theories/Proof_Piece2.v
theories/Props_Piece.v
theories/Model_Wrap.v
theories/Spec_Wrap.v
theories/Proof_Wrap.v
theories/Proof_Wrap2.v
theories/Proof_Wrap3.v
theories/Proof_Wrap4.v
theories/Props_Wrap.v
theories/Model_Boss.v
theories/Spec_Boss.v
theories/Proof_Boss.v
theories/Props_Boss.v
theories/Model_BossR.v
theories/Proof_BossR.v
theories/Props_BossR.v
theories/Model_Cli.v
theories/Spec_Cli.v
theories/Proof_Cli.v
theories/Props_Cli.v
theories/Props_Cli2.v
theories/Props_Cli3.v
theories/Model_Plot.v
theories/Spec_Plot.v
theories/Proof_Plot.v
theories/Props_Plot.v
theories/Proof_Plot2.v
theories/Model_Run.v
theories/Spec_Run.v
theories/Proof_Run.v
theories/Proof_Run2.v
theories/Proof_Run3.v
theories/Proof_Run4.v
theories/Proof_Run5.v
theories/Proof_Run6.v
theories/Proof_Run7.v
theories/Props_Run.v
theories/Proof_Run8.v
theories/Proof_Run9.v
theories/Props_Run2.v
theories/Model_RunMPI.v
theories/Proof_RunMPI.v
theories/Proof_RunMPI2.v
theories/Proof_RunMPI3.v
theories/Props_RunMPI.v
theories/Model_Reuse.v
theories/Spec_Reuse.v
theories/Proof_Reuse.v
theories/Proof_Reuse2.v
theories/Proof_Reuse3.v
theories/Props_Reuse.v
theories/Model_Cols.v
theories/Spec_Cols.v
theories/Proof_Cols.v
theories/Props_Cols.v
theories/Model_RunMP.v
theories/Spec_RunMP.v
theories/Proof_RunMP.v
theories/Proof_RunMP2.v
theories/Props_RunMP.v
theories/Model_RunDesi.v
theories/Spec_RunDesi.v
theories/Proof_RunDesi.v
theories/Props_RunDesi.v
theories/Spec_Dead.v
theories/Proof_Dead.v
theories/Proof_Dead2.v
theories/Props_Dead.v
theories/Model_RunDesiMPI.v
theories/Props_RunDesiMPI.v
theories/Spec_Scale.v
theories/Proof_Scale.v
theories/Proof_Scale2.v
theories/Proof_Scale3.v
theories/Proof_Scale4.v
theories/Props_Scale.v
theories/Model_Comm.v
theories/Model_CommMain.v
theories/Spec_Comm.v
theories/Proof_Comm.v
theories/Proof_CommMain.v
theories/Proof_CommMain2.v
theories/Proof_CommMain3.v
theories/Props_Comm.v
theories/Spec_Order.v
theories/Proof_Order.v
theories/Proof_Order2.v
theories/Props_Order.v
theories/Model_Float.v
theories/Model_Float2.v
theories/Spec_Float.v
theories/Proof_Float.v
theories/Proof_Float2.v
theories/Proof_Float3.v
theories/Proof_Float4.v
theories/Proof_Float5.v
theories/Proof_Float6.v
theories/Proof_Float7.v
theories/Props_Float.v
theories/Props_Float2.v
theories/Props_Float3.v
theories/Props_Float4.v
theories/Proof_Float8.v
theories/Proof_Float9.v
theories/Props_Float5.v
theories/Props_Window.v
theories/Spec_Perfect.v
theories/Proof_Perfect.v
theories/Props_Perfect.v
theories/Model_Single.v
theories/Spec_Single.v
theories/Proof_Single.v
theories/Props_Single.v
theories/Model_Float3.v
theories/Proof_Float10.v
theories/Props_Float6.v
theories/Model_Models.v
theories/Spec_Models.v
theories/Proof_Models.v
theories/Props_Models.v
theories/Props_Models2.v
theories/Model_RunDesiMP.v
theories/Spec_RunDesiMP.v
theories/Proof_RunDesiMP.v
theories/Props_RunDesiMP.v
theories/Model_ModelFile.v
theories/Spec_ModelFile.v
theories/Proof_ModelFile.v
theories/Props_ModelFile.v
theories/Model_ModelFileMPI.v
theories/Spec_ModelFileMPI.v
theories/Proof_ModelFileMPI.v
theories/Props_ModelFileMPI.v
theories/Model_EvalTable.v
theories/Spec_EvalTable.v
theories/Props_EvalTable.v
theories/Model_FindArch.v
theories/Spec_FindArch.v
theories/Proof_FindArch.v
theories/Props_FindArch.v
theories/Model_FromHeader.v
theories/Props_FromHeader.v
theories/Model_AllArch.v
theories/Props_AllArch.v
theories/Model_ArchOption.v
theories/Props_ArchOption.v
theories/Model_Endian.v
theories/Props_Endian.v
theories/Model_H5Path.v
theories/Proof_H5Path.v
theories/Props_H5Path.v
theories/Props_H5Path2.v
theories/Model_Writers.v
theories/Props_Writers.v
