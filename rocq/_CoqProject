-Q theories Verif
theories/Base.v
theories/BaseProofs.v
theories/Spec.v
theories/Util.v
theories/Varint.v
theories/VarintDecodeProofs.v
theories/VarintProofs.v
theories/Buffers.v
theories/Rle.v
theories/Offsets.v
theories/Sink.v
theories/PrimEnc.v
theories/ReadBlock.v
theories/SpecRows.v
theories/ObserveEnc.v
theories/UtilProofs.v
theories/Observe.v
theories/BitmapProofs.v
theories/BuffersProofs.v
theories/RleProofs.v
theories/RleDecodeProofs.v
theories/RleTrackProofs.v
theories/OffsetsProofs.v
theories/RowsProofs.v
theories/PropsVarint.v
theories/PropsBuffers.v
theories/PropsBoolClear.v
theories/PropsRle.v
theories/PropsOffsets.v
theories/BlockProofs.v
theories/PrimEncProofs.v
theories/PrimRunProofs.v
theories/PropsPrim.v
theories/PropsPrimRows.v
theories/PropsPrimIds.v
theories/PropsPrimErr.v
theories/BinEnc.v
theories/SpecBin.v
theories/BinBlockProofs.v
theories/BinEncProofs.v
theories/BinRunProofs.v
theories/ReadBinBlock.v
theories/PropsBin.v
theories/PropsBinRows.v
theories/PropsBinExact.v
theories/PropsBinErr.v
theories/Io.v
theories/SpecIo.v
theories/IoProofs.v
theories/IoReadProofs.v
theories/IoStreamProofs.v
theories/PropsIo.v
theories/PropsIoLoss.v
theories/PropsIoBatch.v
theories/Config.v
theories/PropsConfig.v
theories/Names.v
theories/PropsNames.v
theories/Metadata.v
theories/Proto.v
theories/SpecProto.v
theories/ProtoProofs.v
theories/Segment.v
theories/SpecSegment.v
theories/SegmentProofs.v
theories/SegmentRunProofs.v
theories/PropsSegment.v
theories/PropsSegmentEx.v
theories/PropsSegmentRef.v
theories/PropsCrash.v
theories/PropsBuilds.v
theories/PropsReadBack.v
theories/PropsTorn.v
theories/Reader.v
theories/PropsReader.v
theories/Server.v
theories/PropsServer.v
theories/PropsIndexErr.v
theories/PropsChoice.v
theories/Cancel.v
theories/PropsCancel.v
theories/PropsDespite.v
theories/PropsPrimAny.v
theories/PropsWindow.v
theories/PropsRetry.v
theories/PropsBinRetry.v
theories/PropsPrimAll.v
theories/PropsPrimAllErr.v
theories/PropsBinPending.v
theories/SpecFail.v
theories/PropsBinFail.v
theories/PropsPrimFail.v
theories/TreeProofs.v
theories/PropsSegFail.v
theories/PropsSync.v
theories/Timing.v
theories/TimingProofs.v
theories/TimingSegment.v
theories/PropsTiming.v
theories/PropsTimingCrash.v
theories/PropsSyncCrash.v
theories/PropsEnds.v
theories/PropsBlockMax.v
theories/Cursor.v
theories/PropsCursor.v
theories/PropsDivision.v
theories/PropsMismatch.v
theories/PropsCut.v
theories/PropsIoBatchOk.v
theories/PropsTests.v
theories/PropsApart.v
theories/PropsAmplify.v
theories/PropsRepeat.v
theories/PropsPieces.v
theories/PropsMemory.v
theories/PropsCase.v
theories/PropsReuse.v
theories/PropsLookup.v
theories/PropsResume.v
theories/PropsAgain.v
theories/PropsEndToEnd.v
theories/PropsNulls.v
theories/PropsMany.v
theories/PropsReadMem.v
theories/PropsCancelCol.v
theories/Caught.v
theories/PropsCaughtBuf.v
theories/PropsCaughtEnc.v
theories/PropsCaughtSeg.v
theories/PropsCaughtFix.v
theories/PropsCaughtKind.v
theories/PropsCaughtBin.v
theories/PropsCaughtFixSink.v
theories/PropsCaughtPending.v
theories/PropsCaughtMemory.v
theories/PropsCaughtFile.v
theories/PropsCaughtRead.v
theories/PropsCaughtCrash.v
theories/PropsCaughtTorn.v
theories/PropsCaughtDespite.v
theories/PropsCaughtMany.v
theories/PropsEarly.v
theories/PropsGrowing.v
theories/PropsGrowingBatch.v
theories/PropsCaughtStay.v
theories/PropsCaughtRepeat.v
theories/PropsCaughtTiming.v
theories/PropsCaughtTimed.v
theories/PropsEarlyTimed.v
