-Q theories Verif
theories/AccessLog/Fields.v
theories/AccessLog/Model.v
theories/AccessLog/Proofs.v
theories/AccessLog/Spec.v
theories/Auth/Complete.v
theories/Auth/Decide.v
theories/Auth/Docs.v
theories/Auth/DocsMore.v
theories/Auth/DocsOrigin.v
theories/Auth/DocsProofs.v
theories/Auth/Endless.v
theories/Auth/Global.v
theories/Auth/Hidden.v
theories/Auth/Jose.v
theories/Auth/JoseProofs.v
theories/Auth/Local.v
theories/Auth/Model.v
theories/Auth/Outage.v
theories/Auth/Pace.v
theories/Auth/Remember.v
theories/Auth/Run.v
theories/Auth/Safety.v
theories/Auth/Spec.v
theories/Auth/SpecDocs.v
theories/Auth/SpecHidden.v
theories/Auth/SpecJose.v
theories/Auth/SpecRemember.v
theories/Auth/SpecStartup.v
theories/Auth/Startup.v
theories/Auth/System.v
theories/Auth/Throttle.v
theories/Auth/Trace.v
theories/Base/Dec.v
theories/Base/Envelope.v
theories/Base/GoInt.v
theories/Base/ProofsUrl.v
theories/Base/SpecUrl.v
theories/Base/Str.v
theories/Base/Url.v
theories/Base/UrlProofs.v
theories/Blackbox/Model.v
theories/Blackbox/Proofs.v
theories/Blackbox/Spec.v
theories/Client/Walk.v
theories/Client/WalkProofs.v
theories/Client/WalkProofs2.v
theories/Client/WalkSpec.v
theories/Client/WalkStore.v
theories/Float/Fifteen.v
theories/Float/Gauge.v
theories/Float/GaugeProofs.v
theories/Float/Model.v
theories/Float/Nearest.v
theories/Float/Parse.v
theories/Float/ParseProofs.v
theories/Float/Proofs.v
theories/Float/Short.v
theories/Float/Spec.v
theories/Float/SpecDigits.v
theories/Gateway/Decode.v
theories/Gateway/Exact.v
theories/Gateway/Model.v
theories/Gateway/PathProofs.v
theories/Gateway/Proofs.v
theories/Gateway/Queries.v
theories/Gateway/Radix.v
theories/Gateway/Route.v
theories/Gateway/Spec.v
theories/Gateway/SpecPath.v
theories/Gateway/SpecRadix.v
theories/Hash/Model.v
theories/Hash/Proofs.v
theories/Hash/ProofsShare.v
theories/Hash/Spec.v
theories/Http/Model.v
theories/Http/Proofs.v
theories/Http/Proofs2.v
theories/Http/Proofs3.v
theories/Http/Semver.v
theories/Http/Spec.v
theories/Http/Witness.v
theories/Json/Base64.v
theories/Json/Codec.v
theories/Json/CodecProofs.v
theories/Json/Grammar.v
theories/Json/MessageProofs.v
theories/Json/Pb.v
theories/Json/PbProofs.v
theories/Json/Shape.v
theories/Json/Spec.v
theories/Json/SpecBase64.v
theories/Json/SpecGrammar.v
theories/Json/SpecPb.v
theories/Json/SpecShape.v
theories/Json/SpecStatus.v
theories/Json/StatusProofs.v
theories/Json/Text.v
theories/Json/TextProofs.v
theories/Json/ValueProofs.v
theories/Marshaler/Millis.v
theories/Marshaler/Model.v
theories/Marshaler/Proofs.v
theories/Marshaler/Spec.v
theories/Nozzle/Model.v
theories/Nozzle/Observe.v
theories/Nozzle/Proofs.v
theories/Nozzle/ProofsNozzle.v
theories/Nozzle/ProofsProgress.v
theories/Nozzle/Race.v
theories/Nozzle/Spec.v
theories/Oauth2/Model.v
theories/Oauth2/Proofs.v
theories/Oauth2/Spec.v
theories/Promql/Model.v
theories/Promql/Proofs.v
theories/Promql/ProofsDeterminism.v
theories/Promql/ProofsOrder.v
theories/Promql/ProofsRead.v
theories/Promql/ProofsSelect.v
theories/Promql/ProofsText.v
theories/Promql/ProofsValues.v
theories/Promql/Spec.v
theories/Promql/SpecDeterminism.v
theories/Promql/SpecText.v
theories/Promql/Values.v
theories/Props/AccessProps.v
theories/Props/AnswerProps.v
theories/Props/AuthProps.v
theories/Props/BlackboxProps.v
theories/Props/CallProps.v
theories/Props/ClientProps.v
theories/Props/ClockProps.v
theories/Props/ClusterBytesProps.v
theories/Props/ConcProps.v
theories/Props/ControlProps.v
theories/Props/CounterProps.v
theories/Props/DeadlineProps.v
theories/Props/DeterminismProps.v
theories/Props/DigitsProps.v
theories/Props/DocProps.v
theories/Props/DurationProps.v
theories/Props/EndToEndProps.v
theories/Props/FloatProps.v
theories/Props/FormatProps.v
theories/Props/FrameProps.v
theories/Props/GatewayProps.v
theories/Props/GaugeClusterProps.v
theories/Props/GrammarProps.v
theories/Props/HashProps.v
theories/Props/HiddenProps.v
theories/Props/HttpProps.v
theories/Props/InfoProps.v
theories/Props/JsonProps.v
theories/Props/KeepProps.v
theories/Props/MarshalerProps.v
theories/Props/MemoryProps.v
theories/Props/MessageTextProps.v
theories/Props/MetaProps.v
theories/Props/NozzleProps.v
theories/Props/Oauth2Props.v
theories/Props/OctetProps.v
theories/Props/OutageProps.v
theories/Props/PathProps.v
theories/Props/PipelineClusterProps.v
theories/Props/PipelineProps.v
theories/Props/PortProps.v
theories/Props/ProgressProps.v
theories/Props/PromqlProps.v
theories/Props/ProxyProps.v
theories/Props/PruneProps.v
theories/Props/QueryProps.v
theories/Props/RadixProps.v
theories/Props/RefusalProps.v
theories/Props/RefusedProps.v
theories/Props/RememberProps.v
theories/Props/ResultNumberProps.v
theories/Props/RoutingProps.v
theories/Props/SchedulerProps.v
theories/Props/SettingsProps.v
theories/Props/SetupProps.v
theories/Props/ShapeProps.v
theories/Props/StartupProps.v
theories/Props/StatusProps.v
theories/Props/StoreProps.v
theories/Props/SyslogClusterProps.v
theories/Props/SyslogProps.v
theories/Props/SyslogServerProps.v
theories/Props/TightProps.v
theories/Props/TimesProps.v
theories/Props/TlsProps.v
theories/Props/TokenProps.v
theories/Props/UrlProps.v
theories/Props/ValueProps.v
theories/Props/WholeProps.v
theories/Props/WireProps.v
theories/Proxy/Model.v
theories/Proxy/Proofs.v
theories/Proxy/Proofs2.v
theories/Proxy/Spec.v
theories/Prune/Loop.v
theories/Prune/LoopProofs.v
theories/Prune/Model.v
theories/Prune/Proofs.v
theories/Query/Model.v
theories/Query/Proofs.v
theories/Query/ProofsDeadline.v
theories/Query/ProofsStore.v
theories/Query/Spec.v
theories/Query/SpecDeadline.v
theories/Routing/Endless.v
theories/Routing/Model.v
theories/Routing/ProofsCluster.v
theories/Routing/ProofsProxy.v
theories/Routing/ProofsRanges.v
theories/Routing/ProofsRead.v
theories/Routing/ProofsTable.v
theories/Routing/Spec.v
theories/Routing/SpecEndless.v
theories/Scheduler/Model.v
theories/Scheduler/Proofs.v
theories/Scheduler/Spec.v
theories/Scheduler/Witness.v
theories/Setup/Duration.v
theories/Setup/DurationProofs.v
theories/Setup/FractionProofs.v
theories/Setup/Model.v
theories/Setup/Proofs.v
theories/Setup/ProofsEnv.v
theories/Setup/Spec.v
theories/Setup/SpecDuration.v
theories/Setup/SpecFraction.v
theories/Store/Avl.v
theories/Store/AvlProofs.v
theories/Store/GoHeap.v
theories/Store/GoHeapProofs.v
theories/Store/Model.v
theories/Store/ProofsAcct.v
theories/Store/ProofsBase.v
theories/Store/ProofsFinal.v
theories/Store/ProofsFrom.v
theories/Store/ProofsGet.v
theories/Store/ProofsHist.v
theories/Store/ProofsLimit.v
theories/Store/ProofsOrder.v
theories/Store/ProofsRoom.v
theories/Store/Refuted.v
theories/Store/Spec.v
theories/Store/SpecFrom.v
theories/Store/Witness.v
theories/StoreConc/Metrics.v
theories/StoreConc/Model.v
theories/StoreConc/ProofsAcct.v
theories/StoreConc/ProofsBooks.v
theories/StoreConc/ProofsFinal.v
theories/StoreConc/ProofsLin.v
theories/StoreConc/ProofsLive.v
theories/StoreConc/ProofsLock.v
theories/StoreConc/ProofsMetrics.v
theories/StoreConc/ProofsOrderly.v
theories/StoreConc/ProofsTree.v
theories/StoreConc/Refuted.v
theories/StoreConc/Spec.v
theories/StoreConc/SpecMetrics.v
theories/StoreConc/SpecStays.v
theories/StoreConc/Witness.v
theories/StoreConc/WitnessMetrics.v
theories/StoreConc/WitnessStays.v
theories/Syslog/Message.v
theories/Syslog/MessageMore.v
theories/Syslog/MessageProofs.v
theories/Syslog/Model.v
theories/Syslog/Octet.v
theories/Syslog/OctetProofs.v
theories/Syslog/Proofs.v
theories/Syslog/ProofsServer.v
theories/Syslog/Server.v
theories/Syslog/Spec.v
theories/Syslog/SpecMessage.v
theories/Syslog/SpecOctet.v
theories/Syslog/SpecServer.v
theories/Times/Calendar.v
theories/Times/Library.v
theories/Times/Model.v
theories/Times/Proofs.v
theories/Times/Spec.v
theories/Times/SpecTexts.v
theories/Times/Strict.v
theories/Times/Texts.v
theories/Times/TextsProofs.v
theories/Tls/Model.v
theories/Tls/Spec.v
theories/Whole/Model.v
theories/Whole/Proofs.v
theories/Whole/ProofsFull.v
theories/Whole/ProofsMeta.v
theories/Whole/Spec.v
theories/Whole/SpecFull.v
theories/Whole/SpecMeta.v
theories/Whole/SpecSyslog.v
theories/Whole/Witness.v
theories/Wire/AnswerProofs.v
theories/Wire/Client.v
theories/Wire/Cluster.v
theories/Wire/ClusterOwner.v
theories/Wire/ClusterProofs.v
theories/Wire/ClusterWitness.v
theories/Wire/Control.v
theories/Wire/ControlMore.v
theories/Wire/ControlProofs.v
theories/Wire/Format.v
theories/Wire/FormatProofs.v
theories/Wire/Frame.v
theories/Wire/FrameLarge.v
theories/Wire/FrameProofs.v
theories/Wire/Grammar.v
theories/Wire/Model.v
theories/Wire/Node.v
theories/Wire/NodeProofs.v
theories/Wire/Numbers.v
theories/Wire/Order.v
theories/Wire/PipelineCluster.v
theories/Wire/PipelineProofs.v
theories/Wire/PipelineSyslog.v
theories/Wire/Proofs.v
theories/Wire/Received.v
theories/Wire/Result.v
theories/Wire/ResultProofs.v
theories/Wire/Spec.v
theories/Wire/SpecAnswer.v
theories/Wire/SpecCluster.v
theories/Wire/SpecControl.v
theories/Wire/SpecFormat.v
theories/Wire/SpecFrame.v
theories/Wire/SpecNode.v
theories/Wire/SpecPipeline.v
theories/Wire/SpecPipelineCluster.v
theories/Wire/SpecResult.v
