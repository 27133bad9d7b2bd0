-Q theories Verif
theories/Base.v
theories/BitUtils.v
theories/BitUtilsProofs.v
theories/BitQueue.v
theories/BitQueueProofs.v
theories/QueueClient.v
theories/GenQueue.v
theories/QueueCurrent.v
theories/LevelIndices.v
theories/LevelIndicesProofs.v
theories/ConstLoops.v
theories/BitLaws.v
theories/Hierarchy.v
theories/Lawful.v
theories/IterProofs.v
theories/IterCost.v
theories/Ops.v
theories/OpsProofs.v
theories/MultiProofs.v
theories/Dense.v
theories/DenseNode.v
theories/DenseShape.v
theories/DenseProofs.v
theories/DenseRemove.v
theories/DenseTree.v
theories/DenseDrop.v
theories/Materialize.v
theories/MaterializeProofs.v
theories/Sparse.v
theories/SparseVec.v
theories/SparseShape.v
theories/SparseProofs.v
theories/SparseOps.v
theories/SparseTree.v
theories/Spec.v
theories/MultiIters.v
theories/SpecLaws.v
theories/Client.v
theories/DenseHistory.v
theories/DenseLimit.v
theories/SparseHistory.v
theories/TreeClient.v
theories/Generic.v
theories/Contract.v
theories/MaterializeLaws.v
theories/Compose.v
theories/DenseLaws.v
theories/DenseMemory.v
theories/NodeLayout.v
theories/SparseLaws.v
theories/ViewLaws.v
theories/PanicSafety.v
theories/CostLaws.v
theories/MaterializeViews.v
theories/MaterializeEmpty.v
theories/MaterializeUnwind.v
theories/IterPanic.v
theories/Denote.v
theories/Algebra.v
theories/SparseBlocks.v
theories/SparseReuse.v
theories/Findings.v
theories/Examples.v
theories/RepoTests.v
theories/PropertiesBits.v
theories/PropertiesDense.v
theories/PropertiesSparse.v
theories/PropertiesViews.v
theories/PropertiesMaterialize.v
theories/PropertiesExpr.v
theories/PropertiesPanic.v
theories/PropertiesMemory.v
theories/UserTree.v
theories/PropertiesUser.v
theories/Effects.v
theories/EffectsLaws.v
theories/MaterializeOrder.v
theories/EffectsMat.v
theories/PropertiesEffects.v
theories/PEffects.v
theories/PEffectsLaws.v
theories/PropertiesPEffects.v
theories/ConstUtils.v
theories/PropertiesConst.v
theories/AllViews.v
theories/PEffectsAll.v
theories/AllAlgebra.v
theories/PropertiesAllViews.v
theories/SmallBlock.v
theories/SmallBlockSpec.v
theories/SmallBlockProofs.v
theories/ClusterBlockProofs.v
theories/PropertiesBlocks.v
theories/SmallBlockMemory.v
theories/SmallBlockMemorySpec.v
theories/SmallBlockMemoryProofs.v
theories/PropertiesBoxes.v
theories/WordSize.v
theories/PropertiesWordSize.v
theories/MultiOperands.v
theories/PropertiesOperands.v
theories/PMaterialize.v
theories/PMaterializeLaws.v
theories/PMaterializeAll.v
theories/MaterializeLeak.v
theories/PropertiesPMaterialize.v
theories/PropertiesPEffectsAll.v
theories/UncheckedCursor.v
theories/PropertiesCursor.v
theories/Levels.v
theories/LevelSpec.v
theories/LevelProofs.v
theories/PropertiesLevels.v
theories/Programs.v
theories/ProgramProofs.v
theories/PropertiesPrograms.v
theories/Footprint.v
theories/DenseFootprint.v
theories/SparseFootprint.v
theories/ViewFootprint.v
theories/CursorFootprint.v
theories/IterFootprint.v
theories/PropertiesFootprint.v
theories/PropertiesIterFootprint.v
theories/IterLatency.v
theories/PropertiesLatency.v
theories/MatFootprint.v
theories/MatFootprintSparse.v
theories/PropertiesMatFootprint.v
theories/SparseOverflow.v
theories/SparseNoRemove.v
theories/PropertiesOverflow.v
theories/SparseLevelsTuple.v
theories/PropertiesLevelTuple.v
theories/TreeTransfer.v
theories/MultiUnionRef.v
theories/WorldSpec.v
theories/DenseWorld.v
theories/DenseWorldSim.v
theories/DenseWorldMat.v
theories/DenseWorldLaws.v
theories/PropertiesWorld.v
