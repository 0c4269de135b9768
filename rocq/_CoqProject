-Q theories Verif
theories/Base.v
theories/Crc.v
theories/CrcProofs.v
theories/Record.v
theories/RecordSpec.v
theories/RecordProofs.v
theories/Pb.v
theories/Meta.v
theories/PbRecord.v
theories/PbProofs.v
theories/PbSafe.v
theories/Convert.v
theories/ConvertSpec.v
theories/ConvertProofs.v
theories/File.v
theories/FileProofs.v
theories/Props_Codec.v
theories/Maps.v
theories/Cache.v
theories/CacheProofs.v
theories/Metric.v
theories/MetricSpec.v
theories/MetricFile.v
theories/MetricPaths.v
theories/MetricProofs.v
theories/MetricRead.v
theories/DbSpec.v
theories/DbProofs.v
theories/DbLog.v
theories/DbClient.v
theories/DbRetain.v
theories/RejectSpec.v
theories/RejectProofs.v
theories/Props_Storage.v
theories/Props_Reject.v
theories/PcgProofs.v
theories/FileCache.v
theories/FileCacheProofs.v
theories/Props_Cache.v
theories/LockPool.v
theories/LockPoolProofs.v
theories/Queue.v
theories/QueueProofs.v
theories/Launcher.v
theories/LauncherProofs.v
theories/Props_Concurrency.v
theories/Sset.v
theories/SsetProofs.v
theories/Names.v
theories/NamesProofs.v
theories/Populate.v
theories/PopulateProofs.v
theories/Props_Names.v
theories/Crash.v
theories/CrashFile.v
theories/CrashDb.v
theories/CrashWrite.v
theories/CrashProofs.v
theories/CrashRecover.v
theories/CrashCheck.v
theories/Props_Crash.v
theories/Float.v
theories/FloatProofs.v
theories/Agg.v
theories/AggSpec.v
theories/AggProofs.v
theories/Writer.v
theories/WriterSpec.v
theories/WriterProofs.v
theories/WriterConc.v
theories/WriterConcProofs.v
theories/Dump.v
theories/DumpProofs.v
theories/Props_Data.v
theories/Merge.v
theories/MergeSpec.v
theories/MergeProofs.v
theories/Props_Merge.v
theories/Query.v
theories/QuerySpec.v
theories/QueryProofs.v
theories/Props_Query.v
theories/Server.v
theories/ServerSpec.v
theories/Props_Server.v
theories/Graphite.v
theories/GraphiteSpec.v
theories/Props_Graphite.v
theories/Draw.v
theories/FloatReal.v
theories/DrawSpec.v
theories/DrawProofs.v
theories/DrawFloat.v
theories/Props_Draw.v
theories/Cdf.v
theories/CdfSpec.v
theories/Props_Cdf.v
theories/Typeassert.v
theories/TypeassertSpec.v
theories/Props_Typeassert.v
theories/Registry.v
theories/Props_Registry.v
theories/Config.v
theories/Run.v
theories/Props_Config.v
theories/Tgzfs.v
theories/TgzfsSpec.v
theories/Props_Tgzfs.v
theories/Shutdown.v
theories/Props_Shutdown.v
theories/WireSpec.v
theories/WireProofs.v
theories/Props_Wire.v
theories/Conc.v
theories/ConcFs.v
theories/ConcSim.v
theories/ConcSeq.v
theories/ConcSafe.v
theories/ConcSpec.v
theories/ConcProofs.v
theories/Props_Conc.v
theories/RateSpec.v
theories/RateProofs.v
theories/Props_Rate.v
theories/Axis.v
theories/AxisSpec.v
theories/AxisFloat.v
theories/AxisProofs.v
theories/Props_Axis.v
theories/Graph.v
theories/GraphSpec.v
theories/GraphFloat.v
theories/GraphProofs.v
theories/Props_Graph.v
theories/Render.v
theories/Props_Render.v
theories/PipelineSpec.v
theories/Pipeline.v
theories/PipelineProofs.v
theories/Props_Pipeline.v
theories/Site.v
theories/Props_Site.v
theories/Demo.v
theories/Props_Demo.v
theories/Fault.v
theories/FaultProofs.v
theories/FaultJunk.v
theories/FaultSim.v
theories/FaultBroken.v
theories/FaultRun.v
theories/Props_Fault.v
theories/InitialConfig.v
theories/TomlSpec.v
theories/Cli.v
theories/NewDb.v
theories/Signal.v
theories/Props_Cli.v
theories/DamageSpec.v
theories/DamageFile.v
theories/DamageInv.v
theories/DamageRepr.v
theories/DamageDb.v
theories/DamageProof.v
theories/DamageByte.v
theories/Props_Damage.v
theories/PowerSpec.v
theories/PowerFile.v
theories/PowerDb.v
theories/Props_Power.v
theories/Listener.v
theories/ListenerSpec.v
theories/ListenerProofs.v
theories/Props_Listener.v
theories/Serve.v
theories/Props_Serve.v
theories/Process.v
theories/Props_Process.v
theories/Font.v
theories/FontSpec.v
theories/FontProofs.v
theories/Props_Font.v
theories/Format.v
theories/FormatSpec.v
theories/FormatProofs.v
theories/Props_Format.v
theories/Times.v
theories/TimesSpec.v
theories/TimesProofs.v
theories/Props_Times.v
theories/Json.v
theories/JsonSpec.v
theories/JsonProofs.v
theories/JsonTree.v
theories/FloatValid.v
theories/Props_Json.v
theories/Number.v
theories/NumberSpec.v
theories/NumberProofs.v
theories/NumberReal.v
theories/Props_Number.v
theories/FloatText.v
theories/FloatTextProofs.v
theories/FloatTextRead.v
theories/FloatTextClose.v
theories/Props_FloatText.v
theories/Duration.v
theories/DurationSpec.v
theories/DurationFloat.v
theories/DurationProofs.v
theories/DurationValue.v
theories/DurationText.v
theories/Props_Duration.v
theories/FlipSpec.v
theories/CrcBits.v
theories/CrcOrder.v
theories/CrcFlip.v
theories/DamageRec.v
theories/Props_Flip.v
theories/Sys.v
theories/Props_Sys.v
theories/StoredSpec.v
theories/Props_Stored.v
theories/LoadDist.v
theories/Props_Load.v
theories/Props_Answers.v
theories/CachedFiles.v
theories/Props_Mappings.v
theories/Props_Keys.v
theories/Props_Rand.v
