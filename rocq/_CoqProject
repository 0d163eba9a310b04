-Q theories Verif

theories/SpecBits.v
theories/SpecCrc.v
theories/Spec842.v
theories/CBase.v
theories/CrcTable.v
theories/CrcModel.v
theories/SerialCompModel.v
theories/SerialDecompModel.v
theories/OpcodesTable.v
theories/OptCompModel.v
theories/OptDecompModel.v
theories/TestPatterns.v
theories/BitsLemmas.v
theories/CrcProofs.v
theories/SerialWriter.v
theories/OptWriter.v
theories/SerialDict.v
theories/OptDict.v
theories/SerialIdeal.v
theories/SerialComp.v
theories/SerialValid.v
theories/PureDecoder.v
theories/SerialReader.v
theories/SerialDecomp.v
theories/SerialFacts.v
theories/GenLoop.v
theories/OptIdeal.v
theories/OptComp.v
theories/OptDecomp.v
theories/SpecCalls.v
theories/SpecRefs.v
theories/SerialProps.v
theories/OptProps.v
theories/CrcFacts.v
theories/PropCrc.v
theories/PropSerial.v
theories/PropOpt.v
theories/ChunkedModel.v
theories/SpecChunked.v
theories/ChunkedProofs.v
theories/PropChunked.v
theories/StreamBlockModel.v
theories/SpecBlock.v
theories/StreamBlockProofs.v
theories/Expansion.v
theories/BlockProps.v
theories/PropBlock.v
theories/ConcLib.v
theories/BarrierModel.v
theories/SpecSync.v
theories/BarrierProofs.v
theories/PropSync.v
theories/CompStreamModel.v
theories/SpecStream.v
theories/CompInv.v
theories/CompProofs.v
theories/CompStep.v
theories/CompMain.v
theories/CompTerm.v
theories/CompQuit.v
theories/CompCases.v
theories/CompProps.v
theories/PropStream.v
theories/DecompStreamModel.v
theories/SpecDStream.v
theories/DecompInv.v
theories/DecompStep.v
theories/DecompMain.v
theories/DecompQuit.v
theories/DecompCases.v
theories/DecompProps.v
theories/PropDStream.v
theories/OclModel.v
theories/SpecOcl.v
theories/OclPure.v
theories/OclProofs.v
theories/OclItems.v
theories/OclProps.v
theories/PropOcl.v
theories/CudaModel.v
theories/CudaProofs.v
theories/PropCuda.v
theories/AgreeProps.v
theories/PropAgree.v
theories/SpecOptimal.v
theories/Optimal.v
theories/OptCheapest.v
theories/PropOptimal.v
theories/SpecTokens.v
theories/HlsModel.v
theories/HlsProofs.v
theories/PropHls.v
theories/ModelTests.v
theories/BranchFreeModel.v
theories/BranchFreeProofs.v
theories/BranchFreeComp.v
theories/PropBranchFree.v
theories/InplaceModel.v
theories/SpecInplace.v
theories/OclExt.v
theories/InplaceProofs.v
theories/InplaceSmall.v
theories/InplaceItems.v
theories/PropInplace.v
theories/SpecNull.v
theories/NullProofs.v
theories/NullItems.v
theories/PropNull.v
theories/SampleModel.v
theories/SampleProofs.v
theories/PropSample.v
theories/DeviceModel.v
theories/DeviceProofs.v
theories/PropDevice.v
theories/CryptodevModel.v
theories/SpecCryptodev.v
theories/CryptodevProofs.v
theories/PropCryptodev.v
theories/CacheModel.v
theories/SpecCache.v
theories/CacheProofs.v
theories/PropCache.v
theories/Cl2cModel.v
theories/SpecC.v
theories/Cl2cProofs.v
theories/PropCl2c.v
theories/BenchModel.v
theories/SpecBench.v
theories/BenchProofs.v
theories/PropBench.v
theories/MiscModel.v
theories/SpecMisc.v
theories/MiscProofs.v
theories/PropMisc.v
theories/StreamSampleModel.v
theories/SpecStreamSample.v
theories/StreamSampleComp.v
theories/StreamSampleDecomp.v
theories/StreamSampleProofs.v
theories/StreamSampleAbort.v
theories/StreamSampleHonest.v
theories/PropStreamSample.v
theories/ImplModel.v
theories/SpecImpl.v
theories/ImplProofs.v
theories/PropImpl.v
theories/GpuModel.v
theories/GpuOclModel.v
theories/GpuOcl.v
theories/SpecGpu.v
theories/GpuProofs.v
theories/GpuCuda.v
theories/PropGpu.v
theories/SpecRace.v
theories/StreamAccessModel.v
theories/StreamRace.v
theories/PropRace.v
theories/SpecOptional.v
theories/OclOptional.v
theories/PropOptional.v
theories/SpecPgasus.v
theories/PgasusModel.v
theories/PgasusProofs.v
theories/PropPgasus.v
theories/SpecCudaSample.v
theories/CudaSampleModel.v
theories/CudaSampleProofs.v
theories/PropCudaSample.v
theories/HeapModel.v
theories/HeapLists.v
theories/HeapTables.v
theories/HeapProofs.v
theories/PropHeap.v
theories/DevicesModel.v
theories/PropDevices.v
theories/CondenseModel.v
theories/CondenseProofs.v
theories/PropCondense.v
theories/SpecClSample.v
theories/ClSampleModel.v
theories/ClSampleProofs.v
theories/PropClSample.v
theories/StreamMainModel.v
theories/SpecStreamMain.v
theories/StreamSampleAssert.v
theories/StreamMainProofs.v
theories/PropStreamMain.v
theories/OptConfigModel.v
theories/SpecOptConfig.v
theories/OptConfigProofs.v
theories/PropOptConfig.v
theories/OclConfigModel.v
theories/SpecOclConfig.v
theories/OclConfigProofs.v
theories/PropOclConfig.v
theories/CudaFlatModel.v
theories/SpecCudaFlat.v
theories/CudaFlatProofs.v
theories/PropCudaFlat.v
theories/StrictModel.v
theories/PropStrict.v
theories/SpecFinds.v
theories/OptFinds.v
theories/OptHidden.v
theories/PropFinds.v
theories/PropLimits.v
theories/OptShort.v
theories/PropShortest.v
theories/PropShift.v
theories/PropOverrun.v
theories/HlsMainModel.v
theories/PropHlsMain.v
theories/PropOverrunOcl.v
theories/PropMaybe.v
theories/PropPgasusNodes.v
theories/TestProgModel.v
theories/TestProgProofs.v
theories/PropTests.v
theories/HlsWait.v
theories/PropHlsWait.v
theories/PropChunkedWrap.v
theories/OclOverread.v
theories/PropOclOverread.v
theories/Capacity.v
theories/CapacityOcl.v
theories/CapacityOclEnough.v
theories/PropCapacity.v
theories/ExpandBound.v
theories/PropExpansion.v
theories/PropAlignData.v
theories/Append.v
theories/PropAppend.v
theories/SpecChunkedTrip.v
theories/ChunkedTrip.v
theories/PropChunkedTrip.v
theories/ChunkedTripHw.v
theories/PropChunkedTripHw.v
theories/PropSwVsOpt.v
