-Q theories Verif
theories/Bytes.v
theories/BytesFacts.v
theories/Value.v
theories/ValueFacts.v
theories/Log.v
theories/LogFacts.v
theories/PropsLog.v
theories/Order.v
theories/Memtable.v
theories/ListFacts.v
theories/MemtableFacts.v
theories/ReplacingFacts.v
theories/MemtableProject.v
theories/PropsMemtable.v
theories/AMap.v
theories/Table.v
theories/TableSpec.v
theories/TableFacts.v
theories/TableHistory.v
theories/TableUse.v
theories/PropsTable.v
theories/Proto.v
theories/MdCodec.v
theories/MdFacts.v
theories/PropsMd.v
theories/Fs.v
theories/FsFacts.v
theories/PropsFs.v
theories/Backup.v
theories/BackupFacts.v
theories/PropsBackup.v
theories/Merge.v
theories/MergeFacts.v
theories/Scan.v
theories/ScanFacts.v
theories/PropsScan.v
theories/Kv.v
theories/KvKeys.v
theories/KvKeysFacts.v
theories/KvFacts.v
theories/Md.v
theories/MdOps.v
theories/MdFrame.v
theories/MdIndex.v
theories/MdEntities.v
theories/MdWf.v
theories/MdDict.v
theories/MdSeq.v
theories/PropsKeys.v
theories/PropsDict.v
theories/PropsNames.v
theories/PropsMembers.v
theories/PropsCustom.v
theories/PropsGroups.v
theories/PropsSessions.v
theories/PropsColumns.v
theories/SeqRace.v
theories/PropsSeqRace.v
theories/Access.v
theories/PropsAccess.v
theories/Calendar.v
theories/CalendarFacts.v
theories/CalendarSpec.v
theories/PropsCalendar.v
theories/Funnel.v
theories/FunnelSpec.v
theories/FunnelFacts.v
theories/FunnelRun.v
theories/PropsFunnel.v
theories/PropsFunnelRules.v
theories/PropsFunnelBuckets.v
theories/Ingest.v
theories/IngestFacts.v
theories/PropsIngest.v
theories/MdProps.v
theories/PropsPropNames.v
theories/PropsPeople.v
theories/Aggregate.v
theories/AggSpec.v
theories/AggFacts.v
theories/PropsCounts.v
theories/Report.v
theories/ReportFacts.v
theories/PropsReport.v
theories/Segment.v
theories/SegmentSpec.v
theories/SegmentFacts.v
theories/PropsSegment.v
theories/Filter.v
theories/PropsFilter.v
theories/PropsGroupRows.v
theories/Get.v
theories/GetFacts.v
theories/PropsGet.v
theories/Cas.v
theories/PropsCas.v
theories/Conc.v
theories/ConcFacts.v
theories/ConcDurable.v
theories/PropsConc.v
theories/Compact.v
theories/CompactSpec.v
theories/CompactFacts.v
theories/CompactRun.v
theories/CompactIds.v
theories/CompactHistory.v
theories/PropsCompact.v
theories/Shape.v
theories/ShapeSpec.v
theories/ShapeFacts.v
theories/ShapePivot.v
theories/ShapeRows.v
theories/PropsShape.v
theories/Records.v
theories/RecordsSpec.v
theories/RecordsFacts.v
theories/PropsRecords.v
theories/PropsLookup.v
theories/FunnelRatio.v
theories/FunnelRatioFacts.v
theories/PropsFunnelRatio.v
theories/PageMerge.v
theories/PageMergeSpec.v
theories/PageMergeTags.v
theories/PageMergeIndex.v
theories/PageMergeBatch.v
theories/PageMergeData.v
theories/PageMergeRun.v
theories/PageMergeStart.v
theories/PropsPageMerge.v
theories/Settings.v
theories/PropsSettings.v
theories/BackupJobs.v
theories/BackupJobsSpec.v
theories/BackupJobsFacts.v
theories/PropsBackupJobs.v
theories/Auth.v
theories/AuthSpec.v
theories/AuthFacts.v
theories/PropsAuth.v
theories/Start.v
theories/PropsStart.v
theories/SavedQuery.v
theories/SavedQueryFacts.v
theories/RecCodec.v
theories/RecSpec.v
theories/RecFacts.v
theories/PropsStored.v
theories/Boards.v
theories/BoardsFacts.v
theories/BoardsSpec.v
theories/BoardsInv.v
theories/PropsBoards.v
theories/Requests.v
theories/RequestsSpec.v
theories/RequestsFacts.v
theories/PropsRequests.v
theories/MdTyped.v
theories/IngestServer.v
theories/PropsServer.v
theories/PropsLive.v
theories/Answers.v
theories/AnswersSpec.v
theories/PropsAnswers.v
theories/PropsSpoil.v
theories/PropsFit.v
theories/NewProject.v
theories/PropsNewProject.v
theories/SearchRequests.v
theories/SearchRequestsSpec.v
theories/PropsSearchRequests.v
theories/ReportTable.v
theories/ReportTableSpec.v
theories/ReportTableFacts.v
theories/PropsReportTable.v
theories/AuthStatus.v
theories/AuthStatusSpec.v
theories/AuthStatusFacts.v
theories/PropsAuthStatus.v
theories/Numbers.v
theories/NumbersSpec.v
theories/NumbersFacts.v
theories/NumbersCells.v
theories/NumbersUsers.v
theories/PropsNumbers.v
theories/IngestStatus.v
theories/PropsIngestStatus.v
theories/TimeText.v
theories/TimeTextSpec.v
theories/PropsTimeText.v
theories/PropsSavedTimes.v
theories/BoardCalls.v
theories/BoardCallsSpec.v
theories/PropsBoardCalls.v
theories/CrcFacts.v
theories/PropsDamage.v
theories/EventCalls.v
theories/EventCallsSpec.v
theories/PropsEventCalls.v
theories/PropCalls.v
theories/PropCallsSpec.v
theories/PropsPropCalls.v
theories/CustomSpec.v
theories/PropsCustomAccept.v
theories/ProjectNamesSpec.v
theories/PropsProjectNames.v
