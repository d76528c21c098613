-Q theories Verif
theories/Base.v
theories/ModelAddress.v
theories/LemmasBase.v
theories/LemmasAddress.v
theories/ModelCountryCode.v
theories/ModelNetwork.v
theories/ModelNetworkList.v
theories/SpecNetwork.v
theories/LemmasNetwork.v
theories/LemmasNetworkList.v
theories/LemmasExclude.v
theories/LemmasSpecNetwork.v
theories/LemmasSpecAddress.v
theories/LemmasSummarize.v
theories/PropsAddress.v
theories/LemmasNetworkProps.v
theories/PropsNetwork.v
theories/SpecNetworkList.v
theories/LemmasListProps.v
theories/PropsNetworkList.v
theories/LemmasExcludeProps.v
theories/PropsExclude.v
theories/ModelStringPool.v
theories/SpecStringPool.v
theories/LemmasStringPool.v
theories/PropsStringPool.v
theories/ModelTree.v
theories/LemmasPath.v
theories/LemmasTree.v
theories/LemmasDedup.v
theories/LemmasMergeTree.v
theories/SpecTree.v
theories/LemmasTreeProps.v
theories/PropsTree.v
theories/ModelObjects.v
theories/SpecObjects.v
theories/LemmasObjects.v
theories/PropsObjects.v
theories/ModelFile.v
theories/ModelWriter.v
theories/ModelDatabase.v
theories/LemmasFile.v
theories/SpecWriter.v
theories/LemmasWriter.v
theories/LemmasWrite.v
theories/LemmasOpen.v
theories/LemmasDb.v
theories/LemmasDbCountry.v
theories/LemmasDbProps.v
theories/PropsDatabase.v
theories/LemmasNodes.v
theories/LemmasLookup.v
theories/LemmasLookupDb.v
theories/LemmasTwice.v
theories/LemmasSafe.v
theories/PropsLookup.v
theories/ModelVerify.v
theories/SpecVerify.v
theories/LemmasVerify.v
theories/PropsVerify.v
theories/ModelEnum.v
theories/SpecEnum.v
theories/LemmasEnumAs.v
theories/LemmasEnum.v
theories/LemmasEnumTree.v
theories/LemmasEnumDb.v
theories/LemmasEnumSafe.v
theories/PropsEnum.v
theories/LemmasEnumFlat.v
theories/LemmasEnumFlatDb.v
theories/PropsEnumFlat.v
theories/LemmasEnumBogon.v
theories/LemmasEnumBogonDb.v
theories/PropsEnumBogon.v
theories/ModelText.v
theories/SpecText.v
theories/LemmasText.v
theories/LemmasTextAddr.v
theories/LemmasTextNet.v
theories/LemmasReverse.v
theories/LemmasTextCases.v
theories/PropsText.v
theories/ModelResolv.v
theories/SpecResolv.v
theories/LemmasResolv.v
theories/LemmasResolvDate.v
theories/LemmasResolvReply.v
theories/PropsResolv.v
theories/ModelDownload.v
theories/SpecDownload.v
theories/LemmasDownload.v
theories/PropsDownload.v
theories/ModelExport.v
theories/SpecExport.v
theories/LemmasExport.v
theories/LemmasExportText.v
theories/PropsExport.v
theories/ModelRef.v
theories/SpecRef.v
theories/LemmasRef.v
theories/PropsRef.v
theories/ModelImport.v
theories/SpecImport.v
theories/LemmasImportRange.v
theories/LemmasImport.v
theories/LemmasImportTable.v
theories/LemmasImportBird.v
theories/LemmasImportProps.v
theories/PropsImport.v
theories/ModelCompile.v
theories/SpecCompile.v
theories/LemmasCompile.v
theories/LemmasCompileNet.v
theories/LemmasCompileDb.v
theories/LemmasCompileProps.v
theories/PropsCompile.v
theories/SpecCommand.v
theories/ModelBindings.v
theories/ModelCommand.v
theories/LemmasBindings.v
theories/LemmasCommand.v
theories/PropsCommand.v
theories/LemmasBindingsDb.v
theories/PropsBindings.v
theories/ModelUpdate.v
theories/SpecUpdate.v
theories/LemmasUpdate.v
theories/LemmasGmtime.v
theories/LemmasUpdateDb.v
theories/PropsUpdate.v
theories/ModelList.v
theories/SpecList.v
theories/LemmasList.v
theories/LemmasListDb.v
theories/LemmasListMore.v
theories/LemmasListDump.v
theories/LemmasListExport.v
theories/PropsList.v
theories/ModelAnnounce.v
theories/SpecAnnounce.v
theories/LemmasAnnounce.v
theories/PropsAnnounce.v
theories/ModelGeofeed.v
theories/SpecGeofeed.v
theories/LemmasGeofeed.v
theories/PropsGeofeed.v
theories/ModelOverrides.v
theories/SpecOverrides.v
theories/LemmasOverrides.v
theories/PropsOverrides.v
theories/ModelFeeds.v
theories/SpecFeeds.v
theories/LemmasFeeds.v
theories/PropsFeeds.v
theories/ModelWhois.v
theories/SpecWhois.v
theories/LemmasWhoisTable.v
theories/LemmasWhois.v
theories/LemmasWhoisSource.v
theories/LemmasWhoisProps.v
theories/PropsWhois.v
theories/ModelPython.v
theories/SpecPython.v
theories/LemmasPython.v
theories/PropsPython.v
theories/ModelPyWriter.v
theories/SpecPyWriter.v
theories/LemmasPyWriter.v
theories/PropsPyWriter.v
theories/ModelLua.v
theories/LemmasLua.v
theories/PropsLua.v
theories/ModelRequest.v
theories/SpecRequest.v
theories/LemmasRequest.v
theories/PropsRequest.v
theories/ModelLog.v
theories/SpecLog.v
theories/LemmasLog.v
theories/PropsLog.v
theories/ModelTasks.v
theories/SpecTasks.v
theories/LemmasTasks.v
theories/PropsTasks.v
theories/ModelPyObj.v
theories/SpecPyObj.v
theories/LemmasPyObj.v
theories/PropsPyObj.v
theories/ModelReplace.v
theories/SpecReplace.v
theories/LemmasReplace.v
theories/PropsReplace.v
theories/ModelWriteIo.v
theories/SpecWriteIo.v
theories/LemmasWriteIo.v
theories/LemmasWriteIoProps.v
theories/PropsWriteIo.v
theories/ModelReadIo.v
theories/SpecReadIo.v
theories/LemmasReadIo.v
theories/PropsReadIo.v
theories/ModelKeyFile.v
theories/SpecKeyFile.v
theories/LemmasKeyFile.v
theories/PropsKeyFile.v
theories/ModelHexdump.v
theories/SpecHexdump.v
theories/LemmasHexdump.v
theories/PropsHexdump.v
theories/ModelThreads.v
theories/SpecThreads.v
theories/LemmasThreads.v
theories/PropsThreads.v
theories/ModelHandle.v
theories/SpecHandle.v
theories/LemmasHandle.v
theories/PropsHandle.v
theories/ModelMemory.v
theories/SpecMemory.v
theories/LemmasMemory.v
theories/PropsMemory.v
