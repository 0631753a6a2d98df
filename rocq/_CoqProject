-Q theories Verif
theories/Model/Address.v
theories/Model/AddressLocale.v
theories/Model/AddressRead.v
theories/Model/Atof.v
theories/Model/Base.v
theories/Model/Block.v
theories/Model/Chunks.v
theories/Model/Connection.v
theories/Model/Curl.v
theories/Model/CurlObject.v
theories/Model/CurlShare.v
theories/Model/Curler.v
theories/Model/CurlerMulti.v
theories/Model/EmailExample.v
theories/Model/Endian.v
theories/Model/Environment.v
theories/Model/Examples.v
theories/Model/GnuExample.v
theories/Model/HttpCodec.v
theories/Model/Lifecycle.v
theories/Model/Listen.v
theories/Model/Locale.v
theories/Model/Log.v
theories/Model/LogStart.v
theories/Model/Mailer.v
theories/Model/Management.v
theories/Model/Manager.v
theories/Model/Multipart.v
theories/Model/PollList.v
theories/Model/Protocol.v
theories/Model/Race.v
theories/Model/Request.v
theories/Model/RequestMap.v
theories/Model/SessionExample.v
theories/Model/Sessions.v
theories/Model/Shutdown.v
theories/Model/Signals.v
theories/Model/SocketHandles.v
theories/Model/Sockets.v
theories/Model/Sql.v
theories/Model/SqlExample.v
theories/Model/SqlReuse.v
theories/Model/Streams.v
theories/Model/System.v
theories/Model/TimerExample.v
theories/Model/Transceiver.v
theories/Model/Wake.v
theories/Model/WebMaps.v
theories/Model/WideText.v
theories/Model/Workers.v
theories/Proofs/AddressExamples.v
theories/Proofs/AddressFormProofs.v
theories/Proofs/AddressLocaleProofs.v
theories/Proofs/AddressPrintProofs.v
theories/Proofs/AddressProofs.v
theories/Proofs/AddressReadProofs.v
theories/Proofs/AgreeProofs.v
theories/Proofs/Arith.v
theories/Proofs/AtofError.v
theories/Proofs/AtofProofs.v
theories/Proofs/AtoiProofs.v
theories/Proofs/Base64Proofs.v
theories/Proofs/BlockProofs.v
theories/Proofs/CallbackExamples.v
theories/Proofs/CallbackProofs.v
theories/Proofs/ChunkEnds.v
theories/Proofs/ChunkKeepProofs.v
theories/Proofs/ChunkProofs.v
theories/Proofs/ConnectProofs.v
theories/Proofs/ConnectionProofs.v
theories/Proofs/CurlObjectProofs.v
theories/Proofs/CurlProofs.v
theories/Proofs/CurlShareProofs.v
theories/Proofs/CurlerMultiProofs.v
theories/Proofs/CurlerProgressProofs.v
theories/Proofs/CurlerProofs.v
theories/Proofs/EmailExampleProofs.v
theories/Proofs/EndianProofs.v
theories/Proofs/EnvironmentExamples.v
theories/Proofs/EnvironmentProofs.v
theories/Proofs/EscapeProofs.v
theories/Proofs/ExampleProofs.v
theories/Proofs/ExampleRuns.v
theories/Proofs/ExtractProofs.v
theories/Proofs/FairProofs.v
theories/Proofs/FillProofs.v
theories/Proofs/FloatError.v
theories/Proofs/GnuExampleProofs.v
theories/Proofs/LifecycleProofs.v
theories/Proofs/ListenProofs.v
theories/Proofs/LocaleProofs.v
theories/Proofs/LogExamples.v
theories/Proofs/LogProofs.v
theories/Proofs/LogStartProofs.v
theories/Proofs/LooseExamples.v
theories/Proofs/LooseProofs.v
theories/Proofs/LostProofs.v
theories/Proofs/MailDataProofs.v
theories/Proofs/MailerProgressProofs.v
theories/Proofs/MailerProofs.v
theories/Proofs/ManagementProofs.v
theories/Proofs/ManagerEnds.v
theories/Proofs/ManagerFacts.v
theories/Proofs/ManagerHist.v
theories/Proofs/ManagerProgress.v
theories/Proofs/ManagerProofs.v
theories/Proofs/ManagerStep.v
theories/Proofs/ManagerStop.v
theories/Proofs/ManagerUse.v
theories/Proofs/MemoryCases.v
theories/Proofs/MemoryProofs.v
theories/Proofs/MultipartAnyProofs.v
theories/Proofs/MultipartProofs.v
theories/Proofs/MultipartRequestProofs.v
theories/Proofs/PageExamples.v
theories/Proofs/PageProofs.v
theories/Proofs/PercentProofs.v
theories/Proofs/PollProofs.v
theories/Proofs/ProgressProofs.v
theories/Proofs/ProtocolProofs.v
theories/Proofs/RaceProofs.v
theories/Proofs/ReceiveProofs.v
theories/Proofs/RequestBodyProofs.v
theories/Proofs/RequestLifeProofs.v
theories/Proofs/RequestMapProofs.v
theories/Proofs/RequestProofs.v
theories/Proofs/RequestTextProofs.v
theories/Proofs/ResumeProofs.v
theories/Proofs/SessionExampleProofs.v
theories/Proofs/SessionExampleRuns.v
theories/Proofs/SessionProofs.v
theories/Proofs/ShutdownCases.v
theories/Proofs/ShutdownProofs.v
theories/Proofs/SignalProofs.v
theories/Proofs/SocketEnd.v
theories/Proofs/SocketHandlesProofs.v
theories/Proofs/SocketProofs.v
theories/Proofs/SocketSize.v
theories/Proofs/SqlExampleCases.v
theories/Proofs/SqlExampleProofs.v
theories/Proofs/SqlProofs.v
theories/Proofs/SqlReuseProofs.v
theories/Proofs/StreamProofs.v
theories/Proofs/SystemAnswered.v
theories/Proofs/SystemEnd.v
theories/Proofs/SystemExamples.v
theories/Proofs/SystemFlow.v
theories/Proofs/SystemProofs.v
theories/Proofs/SystemRest.v
theories/Proofs/SystemSeen.v
theories/Proofs/SystemSent.v
theories/Proofs/SystemWork.v
theories/Proofs/TimerExampleProofs.v
theories/Proofs/TimerExampleRuns.v
theories/Proofs/TransceiverProofs.v
theories/Proofs/TransmitProgressProofs.v
theories/Proofs/TransmitProofs.v
theories/Proofs/UrlProofs.v
theories/Proofs/VisitProofs.v
theories/Proofs/WakeProofs.v
theories/Proofs/WakeStop.v
theories/Proofs/WideTextProofs.v
theories/Proofs/WorkersProofs.v
theories/Props/C01_Endian.v
theories/Props/C02_Params.v
theories/Props/C04_RecordSize.v
theories/Props/C05_Streams.v
theories/Props/C10_Percent.v
theories/Props/C11_Forms.v
theories/Props/C12_Base64.v
theories/Props/C14_Sessions.v
theories/Props/C15_Address.v
theories/Props/C17_Transceiver.v
theories/Props/C21_Wake.v
theories/Props/C22_RequestId.v
theories/Props/C23_Request.v
theories/Props/C26_Environment.v
theories/Props/C28_Manager.v
theories/Props/C34_Management.v
theories/Props/C35_Multipart.v
theories/Props/C37_Block.v
theories/Props/C38_Chunks.v
theories/Props/C39_Curl.v
theories/Props/C41_Curler.v
theories/Props/C42_Mailer.v
theories/Props/C43_MailData.v
theories/Props/C44_Sql.v
theories/Props/C45_Sql.v
theories/Props/C46_Connection.v
theories/Props/C47_Locale.v
theories/Props/C50_Sockets.v
theories/Props/C52_System.v
theories/Props/C60_Rest.v
theories/Props/C61_Atof.v
theories/Props/C62_Callback.v
theories/Props/C63_Refusal.v
theories/Props/C64_Lifecycle.v
theories/Props/C65_Pages.v
theories/Props/C66_Log.v
theories/Props/C67_Workers.v
theories/Props/C68_Poll.v
theories/Props/C69_Examples.v
theories/Props/C70_SessionExample.v
theories/Props/C71_EmailExample.v
theories/Props/C72_TimerExample.v
theories/Props/C73_GnuExample.v
theories/Props/C74_SqlExample.v
theories/Props/C75_Listen.v
theories/Props/C76_Race.v
theories/Props/C77_Deadlock.v
theories/Props/C78_CurlObject.v
theories/Props/C79_Signals.v
theories/Props/C80_Progress.v
theories/Props/C81_Connect.v
theories/Props/C82_CurlerProgress.v
theories/Props/C83_MailerProgress.v
theories/Props/C84_AddressForm.v
theories/Props/C85_TransmitProgress.v
theories/Props/C86_SqlReuse.v
theories/Props/C87_SystemRest.v
theories/Props/C88_CurlerMulti.v
theories/Props/C89_Fair.v
theories/Props/C90_Shutdown.v
theories/Props/C91_Atoi.v
theories/Props/C92_Memory.v
theories/Props/C93_WideText.v
theories/Props/C94_Visit.v
theories/Props/C95_AddressLocale.v
theories/Props/C96_AddressRead.v
theories/Props/C97_LogStart.v
theories/Props/C98_CurlShare.v
theories/Props/C99_SocketHandles.v
theories/Spec/AddressFormSpec.v
theories/Spec/AddressLocaleSpec.v
theories/Spec/AddressReadSpec.v
theories/Spec/AddressSpec.v
theories/Spec/Base64Spec.v
theories/Spec/BlockSpec.v
theories/Spec/CallbackCases.v
theories/Spec/CallbackSpec.v
theories/Spec/ChunkSpec.v
theories/Spec/ConnectionCases.v
theories/Spec/ConnectionSpec.v
theories/Spec/CurlObjectSpec.v
theories/Spec/CurlShareSpec.v
theories/Spec/CurlSpec.v
theories/Spec/CurlerMultiSpec.v
theories/Spec/CurlerProgressSpec.v
theories/Spec/CurlerSpec.v
theories/Spec/EmailExampleCases.v
theories/Spec/EmailExampleSpec.v
theories/Spec/EndianSpec.v
theories/Spec/EnvironmentSpec.v
theories/Spec/EscapeSpec.v
theories/Spec/ExampleSpec.v
theories/Spec/FairSpec.v
theories/Spec/FloatSpec.v
theories/Spec/GnuExampleSpec.v
theories/Spec/LifecycleSpec.v
theories/Spec/ListenSpec.v
theories/Spec/LocaleSpec.v
theories/Spec/LogSpec.v
theories/Spec/LogStartSpec.v
theories/Spec/LooseSpec.v
theories/Spec/MailerCases.v
theories/Spec/MailerProgressSpec.v
theories/Spec/MailerSpec.v
theories/Spec/ManagerCases.v
theories/Spec/ManagerSpec.v
theories/Spec/MultipartSpec.v
theories/Spec/PageSpec.v
theories/Spec/PgSpec.v
theories/Spec/PollSpec.v
theories/Spec/ProgressSpec.v
theories/Spec/RaceSpec.v
theories/Spec/RequestSpec.v
theories/Spec/SessionExampleCases.v
theories/Spec/SessionExampleSpec.v
theories/Spec/SessionSpec.v
theories/Spec/ShutdownSpec.v
theories/Spec/SignalSpec.v
theories/Spec/SocketHandlesSpec.v
theories/Spec/SocketSpec.v
theories/Spec/SqlExampleSpec.v
theories/Spec/SqlReuseSpec.v
theories/Spec/SqlSpec.v
theories/Spec/StreamSpec.v
theories/Spec/SystemCases.v
theories/Spec/SystemRestSpec.v
theories/Spec/SystemSpec.v
theories/Spec/TimerExampleSpec.v
theories/Spec/TransceiverSpec.v
theories/Spec/TransmitProgressSpec.v
theories/Spec/VisitSpec.v
theories/Spec/WakeSpec.v
theories/Spec/WideTextSpec.v
theories/Spec/WireSpec.v
theories/Spec/WorkersSpec.v
