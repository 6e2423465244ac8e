-Q theories Verif
theories/Model/Base.v
theories/Model/Bits.v
theories/Model/Timestamps.v
theories/Model/Float.v
theories/Model/ErrorBound.v
theories/Model/MacaqueV.v
theories/Spec/BitsSpec.v
theories/Spec/TimestampsSpec.v
theories/Proofs/BitsProofs.v
theories/Proofs/TimestampsProofs.v
theories/Proofs/MacaqueVProofs.v
theories/Props/C01.v
theories/Props/C02.v
theories/Props/C03.v
theories/Props/C04.v
theories/Spec/ErrorBoundSpec.v
theories/Proofs/FloatProofs.v
theories/Proofs/ErrorBoundProofs.v
theories/Model/Pmc.v
theories/Proofs/OrderProofs.v
theories/Spec/PmcSpec.v
theories/Proofs/PmcProofs.v
theories/Props/C06.v
theories/Props/C13.v
theories/Props/C45.v
theories/Proofs/MaskProofs.v
theories/Spec/PlatformSpec.v
theories/Proofs/MacaqueVLossyProofs.v
theories/Spec/MacaqueVSpec.v
theories/Props/C05.v
theories/Model/Swing.v
theories/Spec/SwingSpec.v
theories/Proofs/SwingProofs.v
theories/Proofs/SwingFloatProofs.v
theories/Proofs/SwingArithmetic.v
theories/Proofs/SwingRounding.v
theories/Proofs/SwingLimits.v
theories/Proofs/SwingAccepted.v
theories/Proofs/SwingStored.v
theories/Proofs/SwingBound.v
theories/Proofs/SwingExample.v
theories/Props/C07.v
theories/Model/Segments.v
theories/Spec/SegmentsSpec.v
theories/Proofs/ParameterProofs.v
theories/Proofs/SegmentsProofs.v
theories/Proofs/SelectionProofs.v
theories/Proofs/GridProofs.v
theories/Proofs/SwingNanProofs.v
theories/Spec/GridSpec.v
theories/Proofs/RestoreProofs.v
theories/Proofs/RestoreWitnesses.v
theories/Props/C08.v
theories/Props/C09.v
theories/Props/C10.v
theories/Props/C11.v
theories/Model/Aggregates.v
theories/Spec/AggregateSpec.v
theories/Spec/LineSpec.v
theories/Proofs/AggregateProofs.v
theories/Proofs/AggregateSumProofs.v
theories/Proofs/AggregateWitnesses.v
theories/Proofs/LineProofs.v
theories/Proofs/LineSegmentProofs.v
theories/Proofs/LineWitnesses.v
theories/Props/C14.v
theories/Model/Multivariate.v
theories/Spec/MultivariateSpec.v
theories/Proofs/MultivariateProofs.v
theories/Proofs/RestoreNearProofs.v
theories/Proofs/MultivariateExample.v
theories/Props/C12.v
theories/Model/Wal.v
theories/Spec/WalSpec.v
theories/Proofs/WalFiles.v
theories/Proofs/WalProofs.v
theories/Proofs/WalHistories.v
theories/Proofs/WalWitnesses.v
theories/Model/WalLocks.v
theories/Proofs/WalLocksProofs.v
theories/Props/C15.v
theories/Props/C16.v
theories/Props/C17.v
theories/Props/C18.v
theories/Props/C19.v
theories/Props/C20.v
theories/Props/C21.v
theories/Model/Pipeline.v
theories/Spec/PipelineSpec.v
theories/Proofs/PipelineMaps.v
theories/Proofs/PipelineInvariant.v
theories/Proofs/PipelineSteps.v
theories/Proofs/PipelineIds.v
theories/Proofs/PipelineRuns.v
theories/Proofs/PipelineCrash.v
theories/Proofs/PipelineMemory.v
theories/Proofs/PipelineTokens.v
theories/Proofs/PipelineProgress.v
theories/Proofs/PipelineResults.v
theories/Proofs/PipelineExamples.v
theories/Proofs/PipelineSeries.v
theories/Proofs/PipelineMore.v
theories/Props/C22.v
theories/Props/C23.v
theories/Props/C24.v
theories/Props/C25.v
theories/Props/C26.v
theories/Props/C27.v
theories/Props/C28.v
theories/Props/C29.v
theories/Props/C30.v
theories/Props/C48.v
theories/Props/C49.v
theories/Model/Transfer.v
theories/Spec/TransferSpec.v
theories/Proofs/TransferProofs.v
theories/Proofs/TransferSizes.v
theories/Proofs/TransferBounds.v
theories/Proofs/TransferExamples.v
theories/Props/C31.v
theories/Props/C32.v
theories/Model/TableWriter.v
theories/Spec/TableWriterSpec.v
theories/Proofs/TableWriterProofs.v
theories/Props/C33.v
theories/Model/Filters.v
theories/Spec/FiltersSpec.v
theories/Proofs/FiltersProofs.v
theories/Props/C34.v
theories/Model/Streams.v
theories/Model/DataSource.v
theories/Spec/StreamsSpec.v
theories/Proofs/GridStreamProofs.v
theories/Proofs/JoinStreamProofs.v
theories/Proofs/JoinErrorProofs.v
theories/Props/C35.v
theories/Props/C36.v
theories/Props/C37.v
theories/Model/Table.v
theories/Spec/TableSpec.v
theories/Proofs/TableProofs.v
theories/Proofs/DefinitionProofs.v
theories/Proofs/StoredDefinitionProofs.v
theories/Proofs/DefinitionWitnesses.v
theories/Proofs/SerializerExample.v
theories/Proofs/DefinitionExample.v
theories/Props/C41.v
theories/Props/C42.v
theories/Props/C43.v
theories/Model/Scan.v
theories/Spec/ScanSpec.v
theories/Proofs/ScanProofs.v
theories/Proofs/JoinChunkProofs.v
theories/Proofs/LimitProofs.v
theories/Proofs/QueryProofs.v
theories/Proofs/QueryExample.v
theories/Props/C38.v
theories/Props/C39.v
theories/Model/AggregateRule.v
theories/Spec/AggregateRuleSpec.v
theories/Proofs/AggregateRuleProofs.v
theories/Proofs/AggregateRuleExample.v
theories/Model/Catalog.v
theories/Spec/CatalogSpec.v
theories/Proofs/InterruptedProofs.v
theories/Proofs/CatalogProofs.v
theories/Proofs/CatalogTheorems.v
theories/Proofs/CatalogExample.v
theories/Props/C44.v
theories/Props/C40.v
theories/Model/Sql.v
theories/Model/Statements.v
theories/Model/CreateSql.v
theories/Model/Configuration.v
theories/Model/LogModes.v
theories/Spec/ConfigurationSpec.v
theories/Spec/LogModesSpec.v
theories/Proofs/ConfigurationProofs.v
theories/Proofs/LogModesProofs.v
theories/Spec/StatementSpec.v
theories/Spec/CreateSqlSpec.v
theories/Proofs/SqlProofs.v
theories/Proofs/StatementProofs.v
theories/Proofs/StatementExample.v
theories/Props/C46.v
theories/Model/Cluster.v
theories/Spec/ClusterSpec.v
theories/Proofs/ClusterProofs.v
theories/Proofs/ClusterDefinitions.v
theories/Proofs/ClusterExample.v
theories/Props/C47.v
theories/Model/Bulkloader.v
theories/Spec/BulkloaderSpec.v
theories/Proofs/BulkloaderProofs.v
theories/Proofs/BulkloaderExample.v
theories/Props/C50.v
theories/Model/Copies.v
theories/Spec/CopiesSpec.v
theories/Proofs/CopiesProofs.v
theories/Proofs/CopiesExample.v
theories/Props/C51.v
theories/Model/Reads.v
theories/Spec/ReadsSpec.v
theories/Proofs/ReadsProofs.v
theories/Proofs/ReadsExample.v
theories/Props/C52.v
theories/Model/EmbeddedTables.v
theories/Spec/EmbeddedTablesSpec.v
theories/Proofs/CreateSqlProofs.v
theories/Proofs/CreateSqlExample.v
theories/Proofs/EmbeddedTablesProofs.v
theories/Props/C53.v
theories/Props/C54.v
theories/Props/C55.v
theories/Props/C56.v
theories/Model/ClusterTruncate.v
theories/Model/ServerLocks.v
theories/Spec/ClusterTruncateSpec.v
theories/Spec/ServerLocksSpec.v
theories/Proofs/ClusterTruncateProofs.v
theories/Proofs/ClusterTruncateOther.v
theories/Proofs/ClusterTruncateWitnesses.v
theories/Proofs/ServerLocksProofs.v
theories/Proofs/ServerLocksOrder.v
theories/Proofs/ServerLocksDeadlock.v
theories/Props/C57.v
theories/Props/C58.v
theories/Model/NodeStop.v
theories/Spec/NodeFlushSpec.v
theories/Spec/NodeStopSpec.v
theories/Proofs/NodeFlushProofs.v
theories/Proofs/NodeWitnesses.v
theories/Proofs/NodeStopProofs.v
theories/Proofs/NodeStopOnce.v
theories/Proofs/NodeStopWitnesses.v
theories/Props/C59.v
theories/Model/QueryNodes.v
theories/Spec/QueryNodesSpec.v
theories/Proofs/QueryNodesProofs.v
theories/Proofs/QueryNodesWitnesses.v
theories/Model/ForeignTables.v
theories/Model/Includes.v
theories/Spec/ForeignTablesSpec.v
theories/Spec/IncludesSpec.v
theories/Proofs/ForeignTablesProofs.v
theories/Proofs/ForeignTablesPython.v
theories/Proofs/ForeignTablesWitnesses.v
theories/Proofs/IncludesProofs.v
theories/Proofs/IncludesWitnesses.v
theories/Props/C60.v
theories/Props/C61.v
theories/Props/C62.v
theories/Model/Lifetimes.v
theories/Spec/LifetimesSpec.v
theories/Proofs/LifetimesProofs.v
theories/Proofs/LifetimesWitnesses.v
theories/Props/C63.v
theories/Model/QueryFile.v
theories/Spec/QueryFileSpec.v
theories/Proofs/QueryFileProofs.v
theories/Proofs/QueryFileMore.v
theories/Proofs/QueryFileWitnesses.v
theories/Props/C64.v
theories/Model/Handles.v
theories/Spec/HandlesSpec.v
theories/Proofs/HandlesProofs.v
theories/Proofs/HandlesWitnesses.v
theories/Proofs/HandlesMore.v
theories/Props/C65.v
theories/Model/WalErrors.v
theories/Spec/WalErrorsSpec.v
theories/Proofs/WalErrorsProofs.v
theories/Proofs/WalErrorsWitnesses.v
theories/Props/C66.v
theories/Model/ClusterVacuum.v
theories/Spec/ClusterVacuumSpec.v
theories/Proofs/ClusterVacuumProofs.v
theories/Props/C67.v
theories/Model/Writes.v
theories/Spec/WriteSpec.v
theories/Proofs/WriteProofs.v
theories/Props/C68.v
theories/Model/EndToEnd.v
theories/Spec/EndToEndSpec.v
theories/Spec/EndToEndTransferSpec.v
theories/Spec/StoredAggregatesSpec.v
theories/Proofs/PipelineSorted.v
theories/Proofs/EndToEndLists.v
theories/Proofs/QueryOneField.v
theories/Proofs/EndToEndProofs.v
theories/Proofs/EndToEndPipeline.v
theories/Proofs/PipelineContiguous.v
theories/Proofs/PipelineCapacity.v
theories/Proofs/EndToEndQuery.v
theories/Proofs/EndToEndResults.v
theories/Proofs/EndToEndOneField.v
theories/Proofs/EndToEndAggregates.v
theories/Proofs/EndToEndExample.v
theories/Proofs/EndToEndOneFieldExample.v
theories/Proofs/EndToEndTransfer.v
theories/Proofs/EndToEndTransferExample.v
theories/Proofs/EndToEndAggregatesExample.v
theories/Props/C69.v
theories/Props/C70.v
theories/Props/C71.v
theories/Model/Startup.v
theories/Spec/StartupSpec.v
theories/Proofs/StartupProofs.v
theories/Props/C72.v
theories/Model/Completion.v
theories/Spec/CompletionSpec.v
theories/Proofs/CompletionProofs.v
theories/Props/C73.v
