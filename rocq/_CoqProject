-Q theories Verif
theories/Base.v
theories/Num.v
theories/Float.v
theories/Axis.v
theories/Uniform.v
theories/StdAlgo.v
theories/VarAxis.v
theories/Category.v
theories/Axes.v
theories/Value.v
theories/VecHist.v
theories/HashHist.v
theories/BaseFacts.v
theories/Spec.v
theories/IntFacts.v
theories/UniformInt.v
theories/UniformMore.v
theories/PropUniformIntLemmas.v
theories/PropUniformInt.v
theories/StdContract.v
theories/OrdLaws.v
theories/VariableFacts.v
theories/FloatOrd.v
theories/PropVariable.v
theories/CategoryFacts.v
theories/PropCategory.v
theories/AxesSpec.v
theories/AxesFacts.v
theories/PropAxes.v
theories/HistSpec.v
theories/HistFacts.v
theories/HashFacts.v
theories/PropHist.v
theories/PropHistIter.v
theories/PropOrder.v
theories/OpsFacts.v
theories/PropMerge.v
theories/PropOps.v
theories/Par.v
theories/PropPar.v
theories/ExactSpec.v
theories/PropValue.v
theories/PropIntBins.v
theories/FloatFacts.v
theories/PropCount.v
theories/FloatUniform.v
theories/FloatUniformNew.v
theories/FloatUniformAcc.v
theories/FloatUniformEdge.v
theories/FloatSpec.v
theories/PropUniformFloat.v
theories/PropUniformFloatEx.v
theories/FloatCyclic.v
theories/PropCyclicFloat.v
theories/Display.v
theories/Defaults.v
theories/DisplayFacts.v
theories/PropDisplay.v
theories/PropDisplayEx.v
theories/PropDefault.v
theories/Serde.v
theories/PropSerde.v
theories/PropSerdeTargets.v
theories/EqFacts.v
theories/PropEq.v
theories/Macros.v
theories/FillSpec.v
theories/FillFacts.v
theories/PropEndToEnd.v
theories/PropExactAxes.v
theories/PropFlagship.v
theories/DisplayCat.v
theories/PropAxisText.v
theories/PropMapReduce.v
theories/Unwind.v
theories/PropUnwind.v
theories/PropIntExact.v
theories/PropCyclicVarFloat.v
theories/PropFloatSum.v
theories/PropAxesWrap.v
theories/PropUniformFloatAny.v
theories/FloatApprox.v
theories/ValueFloat.v
theories/PropValueFloat.v
theories/PropMeanInt.v
theories/Derived.v
theories/PropDerived.v
theories/PropWrapping.v
theories/Lazy.v
theories/PropLazy.v
theories/Program.v
theories/PropProgram.v
theories/AxesMacro.v
theories/PropAxesMacro.v
theories/Errors.v
theories/PropErrors.v
theories/PropProject.v
theories/CategoryEq.v
theories/PropCategoryEq.v
theories/PropDims.v
theories/Caught.v
theories/PropCaught.v
theories/PropShared.v
theories/SimSpec.v
theories/SimFacts.v
theories/PropBuilds.v
theories/PropEqPrograms.v
theories/PropFloatCounts.v
theories/PropBrackets.v
theories/PropTargets.v
theories/PropBracketsStep.v
theories/PropNested.v
theories/PropMeanIntOut.v
theories/PropRelabel.v
theories/PropCyclicStep.v
theories/PropIterExact.v
theories/PropOpsMore.v
theories/PropAccess.v
theories/PropIntWrap.v
theories/PropFloatSumSparse.v
theories/PropAlgebraMore.v
theories/RepoTestsAxis.v
theories/RepoTestsHist.v
theories/GridSpec.v
theories/FloatGrid.v
theories/PropFloatGrid.v
theories/PropGridCounts.v
theories/ValueGeneric.v
theories/PropViews.v
theories/FloatScale.v
theories/PropUnits.v
theories/PropEmbed.v
theories/PropEmbedFloat.v
theories/PropAsVariable.v
theories/PropAsVariableFloat.v
theories/PropConstructors.v
theories/PropUnitsVariable.v
theories/Alloc.v
theories/PropAlloc.v
theories/PropRebin.v
theories/PropRebinAxes.v
theories/PropCaughtLoops.v
theories/PropRebinFloat.v
theories/PropMarginal.v
theories/PropVariants.v
theories/PropMove.v
theories/PropRefill.v
theories/PropCountUnits.v
theories/PropBinData.v
theories/PropBinDataFloat.v
theories/PropBinDataMean.v
theories/PropCountsAll.v
theories/PropProfile.v
theories/PropExactWeights.v
theories/PropRefillFloat.v
theories/PropGridStats.v
theories/PropGridOps.v
theories/PropNormalise.v
theories/PropEquality.v
