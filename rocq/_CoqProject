-Q theories Verif
theories/Base.v
theories/Utf8.v
theories/DataTypes.v
theories/Paths.v
theories/MetaData.v
theories/Maps.v
theories/DataBlock.v
theories/Index.v
theories/RawData.v
theories/ChannelReader.v
theories/TdmsFile.v
theories/Vectors.v
theories/Lib.v
theories/SpecCodec.v
theories/Codec_proofs.v
theories/Segment_proofs.v
theories/Thm_Codec.v
theories/Maps_proofs.v
theories/Parse_proofs.v
theories/SpecIndex.v
theories/Index_proofs.v
theories/History_proofs.v
theories/Open_proofs.v
theories/Thm_Open.v
theories/SpecSession.v
theories/Session_proofs.v
theories/Thm_Index.v
theories/SpecPaths.v
theories/Paths_proofs.v
theories/Thm_Paths.v
theories/SpecRead.v
theories/Block_proofs.v
theories/Request_proofs.v
theories/Plan_proofs.v
theories/Read_proofs.v
theories/Thm_Read.v
theories/Safe_proofs.v
theories/Thm_Safe.v
theories/Add_proofs.v
theories/SpecWrite.v
theories/Write_proofs.v
theories/Step_proofs.v
theories/Program_proofs.v
theories/Thm_Write.v
theories/SpecLocal.v
theories/Local_proofs.v
theories/Reopen_proofs.v
theories/Thm_Reopen.v
theories/WriterIO.v
theories/SpecIO.v
theories/IO_proofs.v
theories/Thm_IO.v
theories/ReaderIO.v
theories/SpecReadIO.v
theories/ReadIO_proofs.v
theories/Cut_proofs.v
theories/Thm_ReadIO.v
theories/Multi_proofs.v
theories/Thm_Multi.v
theories/SpecUneven.v
theories/Uneven_proofs.v
theories/Thm_Uneven.v
theories/Cost_proofs.v
theories/SpecCost.v
theories/Spend_proofs.v
theories/Needs_proofs.v
theories/Thm_Cost.v
theories/Disk.v
theories/SpecDisk.v
theories/Thm_Disk.v
theories/TestFile.v
theories/Vectors_TestFile.v
theories/SpecMulti.v
theories/Skips_proofs.v
theories/SkipReq_proofs.v
theories/Serve_proofs.v
theories/Deliver_proofs.v
theories/Thm_MultiExact.v
theories/Alloc_proofs.v
theories/Thm_Memory.v
theories/Text_proofs.v
theories/Thm_Text.v
theories/Persist_proofs.v
theories/Thm_Persist.v
theories/MultiCut_proofs.v
theories/Thm_MultiCut.v
theories/SpecVerdict.v
theories/Verdict_proofs.v
theories/Thm_Verdict.v
theories/SpecGrammar.v
theories/Grammar_proofs.v
theories/Thm_Grammar.v
theories/SpecWritten.v
theories/Written_proofs.v
theories/Thm_Written.v
theories/Display.v
theories/Display_proofs.v
theories/Thm_Display.v
theories/SpecStore.v
theories/Store_proofs.v
theories/Thm_Store.v
theories/Thm_Parts.v
theories/SpecExact.v
theories/Exact_proofs.v
theories/Thm_Exact.v
theories/Prims.v
theories/Thm_Format.v
theories/Thm_Survive.v
theories/SpecCutFile.v
theories/CutFile_proofs.v
theories/CutRead_proofs.v
theories/Thm_CutFile.v
theories/SpecAppend.v
theories/Thm_Append.v
theories/SpecKept.v
theories/Thm_Kept.v
theories/Thm_Lengths.v
theories/Thm_Types.v
theories/SpecCrash.v
theories/Thm_Crash.v
theories/SpecLasting.v
theories/Thm_Lasting.v
theories/SpecPanic.v
theories/Thm_Panic.v
theories/Thm_Moment.v
theories/SpecBulk.v
theories/Thm_Bulk.v
theories/SpecLookups.v
theories/Thm_Lookups.v
theories/SpecNames.v
theories/Thm_Names.v
theories/SpecTidy.v
theories/Thm_Tidy.v
theories/SpecFailing.v
theories/Thm_Failing.v
theories/SpecListing.v
theories/Thm_Listing.v
theories/SpecSource.v
theories/Source_proofs.v
theories/Told_proofs.v
theories/Thm_Source.v
theories/SpecExtent.v
theories/Extent_proofs.v
theories/Thm_Extent.v
theories/SpecSeen.v
theories/Seen_proofs.v
theories/Thm_Seen.v
theories/SpecJoin.v
theories/Join_proofs.v
theories/Thm_Join.v
theories/SpecCopy.v
theories/Copy_proofs.v
theories/Thm_Copy.v
theories/SpecSame.v
theories/Thm_Same.v
theories/SpecRepeat.v
theories/Repeat_proofs.v
theories/Again_proofs.v
theories/Last_proofs.v
theories/Thm_Repeat.v
theories/SpecLimits.v
theories/Limits_proofs.v
theories/Thm_Limits.v
theories/SpecBegin.v
theories/Thm_Begin.v
theories/Vectors_Unit.v
theories/SpecMixed.v
theories/Mixed_proofs.v
theories/MixedServe_proofs.v
theories/Thm_Mixed.v
theories/InStep_proofs.v
theories/Thm_Follow.v
theories/Width.v
theories/SpecWidth.v
theories/Width_proofs.v
theories/WidthRead_proofs.v
theories/Thm_Width.v
theories/SpecStrings.v
theories/Wide_proofs.v
theories/Thm_Strings.v
theories/SpecDealt.v
theories/Dealt_proofs.v
theories/DealtLast_proofs.v
theories/Thm_Dealt.v
theories/SpecReach.v
theories/Reach_proofs.v
theories/Thm_Reach.v
theories/SpecShort.v
theories/Short_proofs.v
theories/Thm_Short.v
theories/SpecShortStep.v
theories/ShortStep_proofs.v
theories/Thm_ShortStep.v
theories/SpecArrive.v
theories/Arrive_proofs.v
theories/ArriveRun_proofs.v
theories/Thm_Arrive.v
theories/Thm_ArriveOk.v
theories/RowsRun_proofs.v
theories/Thm_Singly.v
theories/Thm_ArriveAll.v
theories/Thm_Rows.v
theories/SpecRowsAny.v
theories/RowsAny_proofs.v
theories/Thm_RowsAny.v
