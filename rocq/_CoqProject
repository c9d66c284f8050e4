-Q theories Verif
theories/Vec.v
theories/VecFacts.v
theories/Geometry.v
theories/SpecGeometry.v
theories/BoxProofs.v
theories/SplitProofs.v
theories/MinSurfaceProofs.v
theories/GeometryFinal.v
theories/PropGeometry.v
theories/Plan.v
theories/SpecPlan.v
theories/PlanProofs.v
theories/PlanExamples.v
theories/PlanFinal.v
theories/PropPlan.v
theories/Mem.v
theories/Pack.v
theories/SpecPack.v
theories/PackProofs.v
theories/Mpi.v
theories/Reshape.v
theories/SpecReshape.v
theories/GroupProofs.v
theories/ReshapeProofs.v
theories/WalkProofs.v
theories/CollectiveProofs.v
theories/AlltoallProofs.v
theories/P2p.v
theories/P2pLocal.v
theories/P2pProofs.v
theories/Place.v
theories/Async.v
theories/Coll.v
theories/AsyncKernels.v
theories/AsyncProofs.v
theories/CollProofs.v
theories/MakeReshape.v
theories/Mixed.v
theories/MakeReshapeProofs.v
theories/TransposeProofs.v
theories/PackFinal.v
theories/PropPack.v
theories/SpecRedistribute.v
theories/RedistributeProofs.v
theories/ReshapeExamples.v
theories/ReshapeFinal.v
theories/PropReshape.v
theories/Transform.v
theories/TransformCheck.v
theories/RankProofs.v
theories/CheckProofs.v
theories/RunProofs.v
theories/StageProofs.v
theories/MixedProofs.v
theories/TransformFlags.v
theories/SpecTransform.v
theories/PipeProofs.v
theories/SetupProofs.v
theories/FftProofs.v
theories/R2cProofs.v
theories/TransformProofs.v
theories/StartProofs.v
theories/MustFail.v
theories/ForwardStuck.v
theories/Complex.v
theories/Scale.v
theories/SpecDft.v
theories/DftProofs.v
theories/ScaleProofs.v
theories/CallProofs.v
theories/TransformExamples.v
theories/TransformFinal.v
theories/PropTransform.v
theories/StockTree.v
theories/SpecStock.v
theories/StockFft.v
theories/StockFftProofs.v
theories/StockRader.v
theories/StockRoot.v
theories/StockNumber.v
theories/StockTreeProofs.v
theories/StockWrong.v
theories/StockExec.v
theories/ExecProofs.v
theories/StockExecProofs.v
theories/StockFinal.v
theories/PropStock.v
theories/R2r.v
theories/SpecR2r.v
theories/R2rSums.v
theories/R2rLines.v
theories/R2rExecProofs.v
theories/R2rProofs.v
theories/R2rBoxes.v
theories/R2rFinal.v
theories/PropR2r.v
theories/Vendor.v
theories/VendorProofs.v
theories/VendorLines.v
theories/VendorGrid.v
theories/VendorExec.v
theories/Fftw.v
theories/Vendors.v
theories/SpecVendor.v
theories/NaturalProofs.v
theories/FftwProofs.v
theories/VendorsProofs.v
theories/VendorBoxes.v
theories/VendorFinal.v
theories/PropVendor.v
theories/Vectors.v
theories/SpecVectors.v
theories/VectorsProofs.v
theories/VectorsFinal.v
theories/PropVectors.v
theories/Gpu.v
theories/SpecGpu.v
theories/GpuRun.v
theories/GpuPack.v
theories/GpuBoxes.v
theories/GpuLinear.v
theories/GpuLaunch.v
theories/GpuR2r.v
theories/GpuR2rProofs.v
theories/GpuSycl.v
theories/GpuSyclProofs.v
theories/GpuFinal.v
theories/PropGpu.v
theories/CApi.v
theories/SpecCApi.v
theories/CApiProofs.v
theories/CApiFinal.v
theories/PropCApi.v
theories/SpecGpuR2r.v
theories/GpuR2rBoxes.v
theories/GpuR2rFinal.v
theories/PropGpuR2r.v
theories/SpecStaged.v
theories/StagedFinal.v
theories/PropStaged.v
theories/IntReshape.v
theories/SpecInt.v
theories/IntReshapeProofs.v
theories/IntExamples.v
theories/IntFinal.v
theories/PropInt.v
theories/SimdFft.v
theories/Simd.v
theories/SimdHom.v
theories/SimdProofs.v
theories/SimdFinal.v
theories/PropSimd.v
theories/SimdRel.v
theories/Counting.v
theories/RoundedScale.v
theories/SpecRounding.v
theories/RoundingProofs.v
theories/RoundingBound.v
theories/FftExec.v
theories/FftExecProofs.v
theories/RoundingTransform.v
theories/RoundingDouble.v
theories/RoundedScaleProofs.v
theories/RoundedScaleR2r.v
theories/SpecRoundingR2r.v
theories/RoundingR2c.v
theories/RoundingFinal.v
theories/PropRounding.v
theories/RoundingR2r.v
theories/RoundedScaleR2rProofs.v
theories/RoundingR2rFinal.v
theories/PropRoundingR2r.v
theories/SpecApp.v
theories/AppProofs.v
theories/AppExamples.v
theories/AppFinal.v
theories/PropApp.v
theories/DeviceVector.v
theories/SpecOwner.v
theories/OwnerProofs.v
theories/OwnerRun.v
theories/OwnerFinal.v
theories/PropOwner.v
theories/SpecAsync.v
theories/FlushProofs.v
theories/AsyncExamples.v
theories/AsyncFinal.v
theories/PropAsync.v
theories/Session.v
theories/SpecSession.v
theories/SessionProofs.v
theories/SessionExamples.v
theories/Programs.v
theories/SpecPrograms.v
theories/ProgramProofs.v
theories/SessionFinal.v
theories/PropSession.v
theories/Python.v
theories/SpecPython.v
theories/PythonProofs.v
theories/PythonFinal.v
theories/PropPython.v
theories/Gather.v
theories/SpecGather.v
theories/GatherProofs.v
theories/GatherFinal.v
theories/PropGather.v
theories/Fortran.v
theories/SpecFortran.v
theories/FortranProofs.v
theories/FortranFinal.v
theories/PropFortran.v
theories/IntTransform.v
theories/SpecIntTransform.v
theories/IntTransformProofs.v
theories/IntTransformExamples.v
theories/IntTransformFinal.v
theories/PropIntTransform.v
theories/Trace.v
theories/SpecTrace.v
theories/TraceExamples.v
theories/TraceProofs.v
theories/TraceFinal.v
theories/PropTrace.v
theories/Align.v
theories/SpecAlign.v
theories/AlignProofs.v
theories/AlignExamples.v
theories/AlignFinal.v
theories/PropAlign.v
theories/SpecMinSurface.v
theories/MinSurfaceExact.v
theories/MinSurfaceFinal.v
theories/PropMinSurface.v
theories/PlanChecks.v
theories/PlanChecksProofs.v
theories/PlanChecksFinal.v
theories/PropPlanChecks.v
theories/SpecGrids.v
theories/GridsProofs.v
theories/GridsPencils.v
theories/GridsPlan.v
theories/GridsFinal.v
theories/PropGrids.v
