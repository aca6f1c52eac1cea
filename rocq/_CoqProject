-Q theories Verif
theories/Base.v
theories/BaseFacts.v
theories/NdModel.v
theories/NdSpec.v
theories/NdIndexFacts.v
theories/NdMemFacts.v
theories/NdProofs.v
theories/NdProofs2.v
theories/PropNd.v
theories/RedModel.v
theories/RedSpec.v
theories/RedProofs.v
theories/RedProofs2.v
theories/RedProofs3.v
theories/DeferProofs.v
theories/PropRed.v
theories/DriftModel.v
theories/DriftSpec.v
theories/DriftProofs.v
theories/ThreadProofs.v
theories/CudaDriftProofs.v
theories/BlandDriftProofs.v
theories/DriftFloat.v
theories/DriftFloatProofs.v
theories/DriftSearchProofs.v
theories/CudaOffsetProofs.v
theories/DriftAgree.v
theories/PropDrift.v
theories/CcModel.v
theories/CcSpec.v
theories/CcProofs.v
theories/CcProofs2.v
theories/CcProofs3.v
theories/LmProofs.v
theories/CcFloat.v
theories/CcFacts.v
theories/PropCc.v
theories/Machine.v
theories/CcCudaModel.v
theories/CcCudaSpec.v
theories/CcCudaResolve.v
theories/CcCudaMerge.v
theories/CcCudaClass.v
theories/CcCudaInit.v
theories/CcCudaProofs.v
theories/PropCcCuda.v
theories/HitModel.v
theories/HitFacts.v
theories/EventProofs.v
theories/HitProofs.v
theories/PropHit.v
theories/ScanModel.v
theories/H5Proofs.v
theories/ScanProofs.v
theories/ScanHist.v
theories/CadenceProofs.v
theories/ScanMain.v
theories/PropScan.v
theories/FlagModel.v
theories/FlagProofs.v
theories/FlagProofs2.v
theories/FlagProofs3.v
theories/FlagReal.v
theories/PropFlag.v
theories/FileModel.v
theories/FileBits.v
theories/FileProofs.v
theories/FileScanProofs.v
theories/FileProofs2.v
theories/PropFile.v
theories/DatModel.v
theories/DatText.v
theories/FloatErr.v
theories/DatProofs.v
theories/PropDat.v
theories/GpuModel.v
theories/GpuFacts.v
theories/GredModel.v
theories/GredIndex.v
theories/GredProofs.v
theories/GredGrid.v
theories/GredExact.v
theories/GredKernels.v
theories/GredReal.v
theories/GredNever.v
theories/PropGred.v
theories/LmCudaModel.v
theories/LmCudaProofs.v
theories/PropLm.v
theories/PipeModel.v
theories/PipeProofs.v
theories/PropPipe.v
theories/PropMore.v
theories/GelModel.v
theories/GpuScatter.v
theories/GelProofs.v
theories/GelFill.v
theories/PropGel.v
theories/CountModel.v
theories/CountProofs.v
theories/PropCount.v
theories/FreqModel.v
theories/FreqProofs.v
theories/PropFreq.v
theories/PropResp.v
theories/MeanErr.v
theories/PropEv.v
theories/CcCollect.v
theories/PropCollect.v
theories/DevModel.v
theories/PropDev.v
theories/DatRead.v
theories/PropDatRead.v
theories/ChanModel.v
theories/PropChan.v
theories/TypeModel.v
theories/TypeFacts.v
theories/TypeFloat.v
theories/PropType.v
theories/TRedModel.v
theories/TRedFacts.v
theories/TRedProofs.v
theories/TRedProofs2.v
theories/PropTRed.v
theories/FsumModel.v
theories/FsumFacts.v
theories/FsumProofs.v
theories/FsumProofs2.v
theories/PropFsum.v
theories/DsumProofs.v
theories/PropDsum.v
theories/SensProofs.v
theories/PropSens.v
theories/AccProofs.v
theories/PropAcc.v
theories/GpuSearchModel.v
theories/GpuSensProofs.v
theories/PropGpuSens.v
theories/VarModel.v
theories/VarProofs.v
theories/PropVar.v
theories/LmSearchModel.v
theories/PropLmSens.v
theories/PropWire.v
theories/PyModel.v
theories/PropPy.v
theories/KurtModel.v
theories/KurtProofs.v
theories/KurtProofs2.v
theories/PropKurt.v
theories/PropFileMore.v
theories/MagModel.v
theories/MagProofs.v
theories/PropMag.v
theories/GaccRel.v
theories/GaccProofs.v
theories/PropGacc.v
theories/GvarModel.v
theories/GvarProofs.v
theories/PropGvar.v
theories/PropGpuChain.v
theories/GleakRel.v
theories/GleakProofs.v
theories/PropGleak.v
theories/GkurtReal.v
theories/GkurtModel.v
theories/GkurtProofs.v
theories/PropGkurt.v
theories/GclipModel.v
theories/GclipProofs.v
theories/PropGclip.v
theories/PropLmChain.v
theories/GmagModel.v
theories/PropGmag.v
theories/EqModel.v
theories/PropEq.v
theories/LaxModel.v
theories/PropLax.v
theories/FhModel.v
theories/PropFh.v
theories/GlaxModel.v
theories/PropGlax.v
theories/RfiModel.v
theories/PropRfi.v
theories/GnormModel.v
theories/PropGnorm.v
theories/PropGain.v
theories/GprepModel.v
theories/PropGprep.v
