-Q theories Verif
theories/Base.v
theories/Types.v
theories/Changes.v
theories/SpecSnapshot.v
theories/SpecChange.v
theories/SpecDiff.v
theories/Diff.v
theories/StepLemmas.v
theories/ColumnLemmas.v
theories/DiffSound.v
theories/ApplyLemmas.v
theories/InvertLemmas.v
theories/DiffSame.v
theories/DiffLocal.v
theories/DiffRun.v
theories/DiffOrder.v
theories/DiffRollback.v
theories/DecideSpec.v
theories/SnapshotExamples.v
theories/PropsSnapshot.v
theories/Load.v
theories/SpecMerge.v
theories/MergeLemmas.v
theories/LoadExamples.v
theories/PropsLoad.v
theories/Text.v
theories/Node.v
theories/Yaml.v
theories/Regex.v
theories/SpecRegex.v
theories/RegexLemmas.v
theories/Ddl.v
theories/ColumnRegex.v
theories/SpecDefinition.v
theories/TextLemmas.v
theories/KeyLemmas.v
theories/YamlLemmas.v
theories/DdlLemmas.v
theories/ParseLemmas.v
theories/SaveLemmas.v
theories/SaveIff.v
theories/PanicLemmas.v
theories/ContentLemmas.v
theories/SequenceLemmas.v
theories/DecideDefinition.v
theories/DefinitionExamples.v
theories/SpecMeaning.v
theories/MeaningLemmas.v
theories/MeaningExamples.v
theories/Display.v
theories/SpecReport.v
theories/ReportLemmas.v
theories/ReportExamples.v
theories/DefinitionLemmas.v
theories/PropsDefinition.v
theories/PropsMeaning.v
theories/PropsReport.v
theories/Sql.v
theories/SpecSql.v
theories/SpecLex.v
theories/SpecStatement.v
theories/SpecServer.v
theories/SpecAccept.v
theories/SpecObey.v
theories/LexLemmas.v
theories/StatementLemmas.v
theories/SayLemmas.v
theories/ServerLemmas.v
theories/AcceptLemmas.v
theories/ObeyLemmas.v
theories/SqlLemmas.v
theories/SqlDecode.v
theories/SqlProofs.v
theories/SqlExamples.v
theories/PropsSql.v
theories/History.v
theories/SpecHistory.v
theories/HistoryLemmas.v
theories/HistoryLoad.v
theories/HistoryProofs.v
theories/HistoryRun.v
theories/HistoryClaims.v
theories/HistoryExamples.v
theories/HistoryMake.v
theories/PropsHistory.v
theories/Dbh.v
theories/SpecDb.v
theories/DbLemmas.v
theories/DbRun.v
theories/DbSteps.v
theories/DbClaims.v
theories/DbChain.v
theories/DbProofs.v
theories/DbNames.v
theories/DbExamples.v
theories/DbCounter.v
theories/PropsDb.v
theories/Expand.v
theories/SpecExpand.v
theories/ExpandLemmas.v
theories/Project.v
theories/Definitions.v
theories/SpecDefinitions.v
theories/DefinitionsLemmas.v
theories/Catalog.v
theories/Introspect.v
theories/World.v
theories/SpecProject.v
theories/ProjectLemmas.v
theories/WorldLemmas.v
theories/ProjectProofs.v
theories/ProjectReady.v
theories/ProjectStatus.v
theories/Serde.v
theories/SpecSerde.v
theories/SerdeLemmas.v
theories/SerdeExamples.v
theories/DefinitionsExamples.v
theories/PropsSerde.v
theories/SpecSession.v
theories/ProjectSession.v
theories/ProjectFlow.v
theories/ProjectClone.v
theories/WorldExamples.v
theories/PropsProject.v
theories/FlowExamples.v
theories/PropsFlow.v
theories/DirectoryLemmas.v
theories/PropsDirectory.v
theories/SpecIntrospect.v
theories/SpecCatalog.v
theories/IntrospectLemmas.v
theories/IntrospectProofs.v
theories/IntrospectExamples.v
theories/CatalogLemmas.v
theories/CatalogProofs.v
theories/CatalogShows.v
theories/CatalogSuccess.v
theories/CatalogCoherent.v
theories/CatalogExamples.v
theories/PropsIntrospect.v
theories/Concurrent.v
theories/ConcurrentRefine.v
theories/SpecConcurrent.v
theories/ConcurrentLemmas.v
theories/ConcurrentPrograms.v
theories/ConcurrentClaims.v
theories/ConcurrentUp.v
theories/ConcurrentDown.v
theories/ConcurrentAlone.v
theories/ConcurrentExamples.v
theories/PropsConcurrent.v
theories/Output.v
theories/SpecOutput.v
theories/OutputLemmas.v
theories/OutputProofs.v
theories/OutputTells.v
theories/OutputFiles.v
theories/OutputExamples.v
theories/PropsOutput.v
theories/ObeyFlow.v
theories/SpecSpelled.v
theories/SpelledLemmas.v
theories/RefusedLemmas.v
theories/DecideServer.v
theories/ServerExamples.v
theories/AcceptExamples.v
theories/SpelledExamples.v
theories/SpecNull.v
theories/NullLemmas.v
theories/NullDiff.v
theories/NullFlow.v
theories/SpecAdd.v
theories/AddLemmas.v
theories/TakeBackLemmas.v
theories/SpecIndexed.v
theories/IndexedLemmas.v
theories/AddFlow.v
theories/SpecTakeBack.v
theories/TakeBackFlow.v
theories/NullExamples.v
theories/AddExamples.v
theories/TakeBackExamples.v
theories/PropsNull.v
theories/PropsAdd.v
theories/PropsTakeBack.v
theories/IndexedFlow.v
theories/IndexedExamples.v
theories/PropsIndexed.v
theories/ObeyFlowExamples.v
theories/PropsServer.v
