-Q theories Verif
theories/Base.v
theories/VarInt.v
theories/Prims.v
theories/Props.v
theories/Codes.v
theories/Packets.v
theories/BaseFacts.v
theories/SpecCodec.v
theories/Utf8Facts.v
theories/VarIntFacts.v
theories/PrimFacts.v
theories/PropsFacts.v
theories/PacketFacts.v
theories/EncFacts.v
theories/CodecFacts.v
theories/GoodFacts.v
theories/SyncGood.v
theories/FrameFacts.v
theories/InjFacts.v
theories/SectionFacts.v
theories/Check.v
theories/CodecMore.v
theories/SpecCodes.v
theories/CodeFacts.v
theories/Witness.v
theories/P_VarInt.v
theories/P_RoundTrip.v
theories/FrameMore.v
theories/P_Frame.v
theories/CountFacts.v
theories/ExactFacts.v
theories/P_Exact.v
theories/SpecLenient.v
theories/LenientFacts.v
theories/LenientMore.v
theories/LenientCases.v
theories/P_Lenient.v
theories/SpecAccept.v
theories/AcceptFacts.v
theories/AcceptMore.v
theories/AcceptAll.v
theories/StreamTake.v
theories/AcceptCases.v
theories/P_Accept.v
theories/StrictMore.v
theories/P_Strict.v
theories/LimitMore.v
theories/P_Limits.v
theories/Options.v
theories/Session.v
theories/Client.v
theories/System.v
theories/SpecSession.v
theories/SessionFacts.v
theories/SystemFacts.v
theories/AckFacts.v
theories/IdFacts.v
theories/Cases.v
theories/Scenario.v
theories/IdMore.v
theories/P_Ids.v
theories/SpecNet.v
theories/NetFacts.v
theories/SpecTrace.v
theories/NetMore.v
theories/TraceFacts.v
theories/TraceMore.v
theories/TraceExact.v
theories/ResumeMore.v
theories/LoopMore.v
theories/LoopCases.v
theories/P_Session.v
theories/P_Loop.v
theories/SpecTime.v
theories/SpecPing.v
theories/TimeFacts.v
theories/TimeMore.v
theories/KeepMore.v
theories/TimeCases.v
theories/PingFacts.v
theories/OrderFacts.v
theories/P_Time.v
theories/P_Net.v
theories/SmolStream.v
theories/TokioRead.v
theories/SpecRead.v
theories/ReadFacts.v
theories/ReadMore.v
theories/ReadCases.v
theories/P_Read.v
theories/SpecOptions.v
theories/OptionsMore.v
theories/OptionsCases.v
theories/P_Options.v
theories/Wire.v
theories/SpecWire.v
theories/WireFacts.v
theories/WireMore.v
theories/WireCases.v
theories/P_Wire.v
theories/Handlers.v
theories/HandlerFacts.v
theories/HandlerMore.v
theories/HandlerCases.v
theories/SpecHandler.v
theories/HandlerServe.v
theories/P_Handlers.v
theories/SpecOut.v
theories/OutFacts.v
theories/OutMore.v
theories/OutLimits.v
theories/OutCases.v
theories/P_Out.v
theories/SpecEnd.v
theories/EndFacts.v
theories/EndMore.v
theories/EndCases.v
theories/P_End.v
theories/Cancel.v
theories/SpecCancel.v
theories/CancelFacts.v
theories/CancelMore.v
theories/CancelCases.v
theories/P_Cancel.v
theories/SpecWorld.v
theories/WorldFacts.v
theories/WorldMore.v
theories/WorldAll.v
theories/WorldLog.v
theories/P_World.v
theories/SpecDecode.v
theories/DecodeFacts.v
theories/SpecProgress.v
theories/ProgressFacts.v
theories/ProgressCases.v
theories/P_Progress.v
theories/SpecPolite.v
theories/PoliteFacts.v
theories/PoliteMore.v
theories/PoliteAll.v
theories/PoliteEnd.v
theories/PoliteCases.v
theories/P_Polite.v
theories/SpecSettle.v
theories/SettleFacts.v
theories/SettleMore.v
theories/SettleEnd.v
theories/SettleCases.v
theories/P_Settle.v
theories/SpecSource.v
theories/SourceFacts.v
theories/SourceMore.v
theories/SourceAll.v
theories/SourceCases.v
theories/P_Source.v
theories/Topics.v
theories/SpecTopics.v
theories/TopicFacts.v
theories/P_Topics.v
theories/Shutdown.v
theories/SpecShutdown.v
theories/ShutdownFacts.v
theories/ShutdownCases.v
theories/P_Shutdown.v
theories/SpecPanic.v
theories/PanicFacts.v
theories/ExactMore.v
theories/P_ExactMore.v
theories/SpecAnswer.v
theories/AnswerFacts.v
theories/P_Answer.v
theories/SpecBytes.v
theories/BytesFacts.v
theories/BytesMore.v
theories/BytesWorld.v
theories/BytesPlay.v
theories/BytesCases.v
theories/P_Bytes.v
theories/SpecCarry.v
theories/CarryFacts.v
theories/CarryMore.v
theories/CarryCases.v
theories/P_Carry.v
theories/SpecLong.v
theories/LongFacts.v
theories/P_Long.v
theories/SpecLabour.v
theories/LabourFacts.v
theories/LabourMore.v
theories/LabourCases.v
theories/P_Labour.v
theories/SpecCrash.v
theories/CrashFacts.v
theories/CrashCases.v
theories/P_Crash.v
theories/SpecAsk.v
theories/AskFacts.v
theories/SpecAllow.v
theories/AskCases.v
theories/P_Ask.v
theories/AllowFacts.v
theories/P_Allow.v
theories/SpecBlind.v
theories/BlindFacts.v
theories/BlindCases.v
theories/P_Blind.v
theories/WireDrop.v
theories/WireDropFacts.v
theories/WireDropCases.v
theories/P_WireDrop.v
theories/SpecOpaque.v
theories/OpaqueFacts.v
theories/OpaqueCases.v
theories/P_Opaque.v
theories/SpecSwap.v
theories/SwapFacts.v
theories/SwapCases.v
theories/P_Swap.v
theories/SpecAgree.v
theories/AgreeFacts.v
theories/AgreeCases.v
theories/P_Agree.v
theories/SpecLabel.v
theories/LabelFacts.v
theories/LabelCases.v
theories/P_Label.v
theories/SpecHold.v
theories/HoldFacts.v
theories/HoldCases.v
theories/P_Hold.v
theories/SpecPause.v
theories/PauseFacts.v
theories/PauseCases.v
theories/P_Pause.v
theories/SpecBound.v
theories/BoundFacts.v
theories/BoundCases.v
theories/P_Bound.v
theories/HandlerDrop.v
theories/SpecAttend.v
theories/HandlerDropFacts.v
theories/HandlerDropCases.v
theories/P_HandlerDrop.v
theories/SpecRecover.v
theories/RecoverFacts.v
theories/RecoverCases.v
theories/P_Recover.v
