-Q theories Verif

theories/AddNode.v
theories/AddNodeProofs.v
theories/AddNodeSpec.v
theories/AddRef.v
theories/Ancestors.v
theories/AncestorsSpec.v
theories/Arcs.v
theories/ArcsProofs.v
theories/AttrData.v
theories/AttrNames.v
theories/AttrNamesProofs.v
theories/AttrNamesSpec.v
theories/AttrReal.v
theories/AttrRealSpec.v
theories/CacheFile.v
theories/CacheFileProofs.v
theories/CacheFileSpec.v
theories/CacheProofs.v
theories/CacheSpec.v
theories/CacheTimes.v
theories/CarryProofs.v
theories/CarrySpec.v
theories/ChildCache.v
theories/ChildCacheProofs.v
theories/ChildCacheSpec.v
theories/ClearInstProofs.v
theories/Cli.v
theories/CliProofs.v
theories/CliSpec.v
theories/CliVerbose.v
theories/CodeLines.v
theories/CodeLinesProofs.v
theories/CodeLinesSpec.v
theories/CodeLinesStepProofs.v
theories/Comp.v
theories/CompLiveProofs.v
theories/CompLookProofs.v
theories/CompOrderProofs.v
theories/CompPostProofs.v
theories/CompProofs.v
theories/CompProxyProofs.v
theories/CompSimProofs.v
theories/CompSpec.v
theories/CompStageProofs.v
theories/CompTotalProofs.v
theories/CompTreeProofs.v
theories/Contexts.v
theories/ContextsProofs.v
theories/ContextsSpec.v
theories/ConvertCmd.v
theories/DelNode.v
theories/DelNodeProofs.v
theories/DelOver.v
theories/DelOverProofs.v
theories/DelOverSpec.v
theories/DescProofs.v
theories/Dict.v
theories/DictFacts.v
theories/DirtyMap.v
theories/DirtyProofs.v
theories/DirtySpec.v
theories/DirtyStageProofs.v
theories/DirtyStageSpec.v
theories/Diverge.v
theories/EnvVars.v
theories/EnvVarsProofs.v
theories/EnvVarsSpec.v
theories/ExecOrderProofs.v
theories/Fallbacks.v
theories/FallbacksProofs.v
theories/FallbacksSpec.v
theories/FileIO.v
theories/FileIOProofs.v
theories/GraphErrors.v
theories/Headless.v
theories/HeadlessSpec.v
theories/HierarchyProofs.v
theories/Infer.v
theories/InferProofs.v
theories/InferSpec.v
theories/InstTrace.v
theories/Layer.v
theories/LayerIO.v
theories/LayerIOProofs.v
theories/LayerIOSpec.v
theories/LayerOver.v
theories/LayerOverProofs.v
theories/LayerOverSpec.v
theories/LayerProofs.v
theories/LayerSpec.v
theories/Legacy.v
theories/LegacyProofs.v
theories/LegacyProofs2.v
theories/LegacyProofs3.v
theories/LegacyProofs4.v
theories/LegacySpec.v
theories/ListMerger.v
theories/Live.v
theories/LiveBase.v
theories/LiveOrder.v
theories/LiveOrderProofs.v
theories/LiveOrderSpec.v
theories/LiveProofs.v
theories/LiveSpec.v
theories/LocalProofs.v
theories/LocalSpec.v
theories/LogHandlers.v
theories/LogHandlersProofs.v
theories/LogHandlersSpec.v
theories/LogStream.v
theories/LogStreamProofs.v
theories/LogStreamSpec.v
theories/LogTrack.v
theories/LogTrackProofs.v
theories/LogTrackSpec.v
theories/MergeProofs.v
theories/MroRelProofs.v
theories/Names.v
theories/NamesProofs.v
theories/NamesSpec.v
theories/NewSublayer.v
theories/NewSublayerProofs.v
theories/NewSublayerSpec.v
theories/NodeCopyProofs.v
theories/NodeEdit.v
theories/NodeEditProofs.v
theories/NodeEditSpec.v
theories/NodeIO.v
theories/NodeIOProofs.v
theories/NodeIOSpec.v
theories/NodeSet.v
theories/NodeTableProofs.v
theories/NxtPath.v
theories/Opinions.v
theories/OpinionsProofs.v
theories/OpinionsSpec.v
theories/OrderSpec.v
theories/PathProofs.v
theories/PathSpec.v
theories/Props_AddNode.v
theories/Props_AddRef.v
theories/Props_Ancestors.v
theories/Props_Arcs.v
theories/Props_AttrData.v
theories/Props_AttrDataComp.v
theories/Props_AttrNames.v
theories/Props_AttrReal.v
theories/Props_CacheFile.v
theories/Props_Carry.v
theories/Props_ClearInst.v
theories/Props_Cli.v
theories/Props_CliVerbose.v
theories/Props_CodeLines.v
theories/Props_Comp.v
theories/Props_CompCases.v
theories/Props_Contexts.v
theories/Props_ConvertCmd.v
theories/Props_DelNode.v
theories/Props_DelOver.v
theories/Props_Dirty.v
theories/Props_Diverge.v
theories/Props_Enabled.v
theories/Props_EnvVars.v
theories/Props_Fallbacks.v
theories/Props_FileIO.v
theories/Props_GraphErrors.v
theories/Props_Headless.v
theories/Props_Hierarchy.v
theories/Props_Infer.v
theories/Props_InstTrace.v
theories/Props_LayerIO.v
theories/Props_Layers.v
theories/Props_Lists.v
theories/Props_Live.v
theories/Props_Local.v
theories/Props_LogHandlers.v
theories/Props_LogStream.v
theories/Props_LogTrack.v
theories/Props_Names.v
theories/Props_NewSublayer.v
theories/Props_NodeEdit.v
theories/Props_NodeIO.v
theories/Props_NodeSet.v
theories/Props_OldFiles.v
theories/Props_Opinions.v
theories/Props_Order.v
theories/Props_Path.v
theories/Props_Quote.v
theories/Props_Resolve.v
theories/Props_Runtime.v
theories/Props_SaveTemp.v
theories/Props_ServerAddress.v
theories/Props_Session.v
theories/Props_SetInst.v
theories/Props_Snippet.v
theories/Props_SocketClient.v
theories/Props_SpecDup.v
theories/Props_SpecOps.v
theories/Props_StageLoad.v
theories/Props_StageRun.v
theories/Props_Tokens.v
theories/PyClass.v
theories/PyClassProofs.v
theories/PyClassSpec.v
theories/PyStr.v
theories/PyStrFacts.v
theories/PyVal.v
theories/PyValFacts.v
theories/Quote.v
theories/Resolve.v
theories/ResolveEndProofs.v
theories/ResolveProofs.v
theories/ResolveSpec.v
theories/Runtime.v
theories/RuntimeProofs.v
theories/RuntimeSpec.v
theories/SaveTemp.v
theories/SaveTempProofs.v
theories/SaveTempSpec.v
theories/ServerAddress.v
theories/Session.v
theories/SessionProofs.v
theories/SessionSpec.v
theories/SetInst.v
theories/SetInstProofs.v
theories/SetInstSpec.v
theories/Snippet.v
theories/SnippetProofs.v
theories/SnippetSpec.v
theories/SocketClient.v
theories/SortProofs.v
theories/SortRows.v
theories/SpecAdd.v
theories/SpecBase.v
theories/SpecClosed.v
theories/SpecCor.v
theories/SpecDelete.v
theories/SpecDup.v
theories/SpecDupProofs.v
theories/SpecHistory.v
theories/SpecMove.v
theories/SpecOps.v
theories/SpecOpsSpec.v
theories/SpecParent.v
theories/SpecRename.v
theories/SpecReparent.v
theories/StageLoad.v
theories/StageLoadProofs.v
theories/StageLoadSpec.v
theories/StageRun.v
theories/StageRunProofs.v
theories/StageRunSpec.v
theories/StageView.v
theories/StageViewProofs.v
theories/TokenProofs.v
theories/TokenSpec.v
theories/Tokens.v
