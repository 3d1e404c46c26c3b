-Q theories Verif
theories/Base.v
theories/ModelData.v
theories/ModelUtility.v
theories/ModelTree.v
theories/SpecTree.v
theories/SpecControl.v
theories/Demo.v
theories/ProofsTree.v
theories/ProofsLife.v
theories/ProofsWhole.v
theories/ProofsControl.v
theories/ProofsMemory.v
theories/ProofsParallel.v
theories/ProofsDeco.v
theories/ProofsRun.v
theories/SpecTimed.v
theories/ProofsTimed.v
theories/SpecUtility.v
theories/ProofsUtility.v
theories/SpecData.v
theories/ProofsData.v
theories/SpecFlow.v
theories/ProofsFlow.v
theories/ModelEdit.v
theories/SpecEdit.v
theories/ModelMsg.v
theories/SpecMsg.v
theories/ProofsMsg.v
theories/ProofsLoad.v
theories/ProofsReload.v
theories/PropertiesMsg.v
theories/DemoEdit.v
theories/ProofsEdit.v
theories/ProofsEditOps.v
theories/ProofsEditMove.v
theories/ProofsEditCycle.v
theories/ProofsEditWire.v
theories/ProofsEditAdd.v
theories/ProofsEditReplace.v
theories/ProofsEditMorph.v
theories/ProofsEditHist.v
theories/ProofsEditLast.v
theories/ModelExec.v
theories/SpecExec.v
theories/ProofsExec.v
theories/ProofsExecRun.v
theories/ProofsExecProps.v
theories/ProofsExecAny.v
theories/DemoExec.v
theories/ModelExecTree.v
theories/ModelLeaf.v
theories/SpecLeaf.v
theories/ProofsLeaf.v
theories/ProofsWait.v
theories/ProofsSeconds.v
theories/ProofsWaitTime.v
theories/ProofsService.v
theories/ProofsTopic.v
theories/ProofsAction.v
theories/ProofsActionTime.v
theories/ProofsRos.v
theories/DemoLeaf.v
theories/PropertiesLeaf.v
theories/PropertiesLife.v
theories/PropertiesControl.v
theories/PropertiesDeco.v
theories/PropertiesTimed.v
theories/PropertiesUtility.v
theories/PropertiesData.v
theories/PropertiesEdit.v
theories/ProofsExecSeen.v
theories/ProofsExecOwn.v
theories/PropertiesExec.v
theories/PropertiesExecOwn.v
theories/ModelFiles.v
theories/SpecFiles.v
theories/ProofsFiles.v
theories/ProofsSave.v
theories/PropertiesFiles.v
theories/ModelSubtrees.v
theories/SpecSubtrees.v
theories/ProofsSubtrees.v
theories/PropertiesSubtrees.v
theories/SpecQuiet.v
theories/ProofsQuiet.v
theories/PropertiesQuiet.v
theories/ProofsReset.v
theories/PropertiesReset.v
theories/ModelSubtreeNode.v
theories/SpecSubtreeNode.v
theories/ProofsSubtreeNode.v
theories/SpecSubtreeOut.v
theories/ProofsSubtreeOut.v
theories/PropertiesSubtreeNode.v
theories/ModelDataLeaf.v
theories/SpecDataLeaf.v
theories/ProofsDataLeaf.v
theories/ProofsDataRefs.v
theories/ProofsDataClass.v
theories/ProofsDataMore.v
theories/ProofsDataFile.v
theories/DemoDataLeaf.v
theories/PropertiesDataLeaf.v
theories/ModelGenerate.v
theories/SpecGenerate.v
theories/ProofsGenerate.v
theories/PropertiesGenerate.v
theories/ModelDiag.v
theories/SpecDiag.v
theories/ProofsDiag.v
theories/PropertiesDiag.v
theories/ModelAlias.v
theories/SpecAlias.v
theories/ProofsAlias.v
theories/PropertiesAlias.v
theories/ModelOptions.v
theories/SpecOptions.v
theories/ProofsOptions.v
theories/PropertiesOptions.v
theories/ModelJson.v
theories/SpecJson.v
theories/ModelPublish.v
theories/SpecPublish.v
theories/ProofsPublish.v
theories/ProofsJson.v
theories/DemoJson.v
theories/PropertiesJson.v
theories/PropertiesPublish.v
theories/ModelFields.v
theories/SpecFields.v
theories/ProofsFields.v
theories/DemoFields.v
theories/PropertiesFields.v
theories/ModelParam.v
theories/SpecParam.v
theories/ProofsParam.v
theories/PropertiesParam.v
theories/ModelLog.v
theories/SpecLog.v
theories/ProofsLog.v
theories/PropertiesLog.v
theories/ModelRate.v
theories/SpecRate.v
theories/ProofsRate.v
theories/PropertiesRate.v
theories/ModelRegistry.v
theories/SpecRegistry.v
theories/ProofsRegistry.v
theories/PropertiesRegistry.v
theories/ModelMigrate.v
theories/SpecMigrate.v
theories/ProofsMigrate.v
theories/PropertiesMigrate.v
theories/ModelSubtreeMake.v
theories/SpecSubtreeMake.v
theories/ProofsSubtreeMake.v
theories/PropertiesSubtreeMake.v
theories/SpecLive.v
theories/ProofsLive.v
theories/ProofsLive2.v
theories/ProofsLive3.v
theories/ProofsLive4.v
theories/ProofsLive5.v
theories/DemoLive.v
theories/PropertiesLive.v
theories/ModelCatalogue.v
theories/SpecCatalogue.v
theories/ProofsCatalogue.v
theories/PropertiesCatalogue.v
theories/ModelLeafUtil.v
theories/SpecLeafUtil.v
theories/ProofsLeafUtil.v
theories/PropertiesLeafUtil.v
theories/ModelSaves.v
theories/SpecSaves.v
theories/ProofsSaves.v
theories/PropertiesSaves.v
theories/ModelFlowExec.v
theories/SpecFlowExec.v
theories/ProofsFlowExec.v
theories/DemoFlow.v
theories/PropertiesFlowExec.v
theories/ModelServer.v
theories/SpecServer.v
theories/ProofsServer.v
theories/DemoServer.v
theories/PropertiesServer.v
theories/SpecGetter.v
theories/ProofsGetter.v
theories/PropertiesGetter.v
theories/ModelEnumSwitch.v
theories/SpecEnumSwitch.v
theories/ProofsEnumSwitch.v
theories/PropertiesEnumSwitch.v
theories/ModelTreeNode.v
theories/DemoTreeNode.v
theories/ProofsTreeNode.v
theories/PropertiesTreeNode.v
theories/ModelFormat.v
theories/SpecFormat.v
theories/ProofsFormat.v
theories/PropertiesFormat.v
theories/ModelResult.v
theories/SpecResult.v
theories/ProofsResult.v
theories/PropertiesResult.v
theories/ModelNodeEq.v
theories/SpecNodeEq.v
theories/PropertiesNodeEq.v
theories/SpecNarrow.v
theories/PropertiesNarrow.v
theories/ModelDataEq.v
theories/SpecDataEq.v
theories/PropertiesDataEq.v
