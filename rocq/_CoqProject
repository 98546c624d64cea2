-Q theories Verif
theories/Base.v
theories/UnicodeSpec.v
theories/UnicodeModel.v
theories/UnicodeText.v
theories/UnicodeLemmas.v
theories/UnicodeLemmas2.v
theories/UnicodeLemmas3.v
theories/UnicodeLemmas4.v
theories/UnicodeProps.v
theories/Integers.v
theories/NumeralSpec.v
theories/NumberModel.v
theories/NumberText.v
theories/NumberLemmas.v
theories/NumberLemmas2.v
theories/NumberLemmas3.v
theories/NumberLemmas4.v
theories/NumberLemmas5.v
theories/NumberLemmas6.v
theories/NumberProps.v
theories/FloatSpec.v
theories/FloatSpec2.v
theories/FloatModel.v
theories/FloatText.v
theories/FloatLemmas.v
theories/FloatLemmas2.v
theories/FloatLemmas3.v
theories/FloatLemmas4.v
theories/FloatLemmas5.v
theories/FloatLemmas6.v
theories/FloatLemmas7.v
theories/FloatLemmas8.v
theories/FloatLemmas9.v
theories/FloatProps.v
theories/FloatProps2.v
theories/CompareSpec.v
theories/CompareModel.v
theories/CompareText.v
theories/CompareLemmas.v
theories/CompareLemmas2.v
theories/CompareProps.v
theories/TestSpec.v
theories/TestModel.v
theories/TestText.v
theories/TestLemmas.v
theories/TestLemmas2.v
theories/TestProps.v
theories/ApplicationModel.v
theories/ApplicationProps.v
theories/ResourceSpec.v
theories/ResourceModel.v
theories/ResourceText.v
theories/ResourceLemmas.v
theories/ResourceLemmas2.v
theories/ResourceLemmas3.v
theories/ResourceLemmas4.v
theories/GrowSpec.v
theories/GrowLemmas.v
theories/ResourceProps.v
theories/OpaqueModel.v
theories/OpaqueProps.v
theories/StreamSpec.v
theories/StreamModel.v
theories/StreamText.v
theories/StreamLemmas.v
theories/StreamLemmas2.v
theories/StreamLemmas3.v
theories/StreamLemmas4.v
theories/StreamLemmas5.v
theories/StreamProps.v
theories/StreamLemmas6.v
theories/StreamProps2.v
theories/FileSpec.v
theories/FileModel.v
theories/FileText.v
theories/FileLemmas.v
theories/FileLemmas2.v
theories/FileLemmas3.v
theories/FileLemmas4.v
theories/FileLemmas5.v
theories/FileLemmas6.v
theories/FileProps.v
theories/KeySpec.v
theories/KeyModel.v
theories/KeyProps.v
theories/WindowSpec.v
theories/WindowModel.v
theories/WindowText.v
theories/WindowLemmas.v
theories/WindowLemmas2.v
theories/WindowLemmas3.v
theories/WindowProps.v
theories/StdioSpec.v
theories/StdioModel.v
theories/StdioText.v
theories/StdioLemmas.v
theories/StdioLemmas2.v
theories/StdioLemmas3.v
theories/StdioLemmas4.v
theories/StdioProps.v
theories/TextFileSpec.v
theories/TextFileModel.v
theories/TextFileText.v
theories/TextFileLemmas.v
theories/TextFileLemmas2.v
theories/TextFileLemmas3.v
theories/TextFileLemmas4.v
theories/TextFileLemmas5.v
theories/TextFileProps.v
theories/LookSpec.v
theories/LookModel.v
theories/LookText.v
theories/LookLemmas.v
theories/LookLemmas2.v
theories/LookLemmas3.v
theories/LookLemmas4.v
theories/LookProps.v
theories/LookSpec2.v
theories/LookLemmas5.v
theories/LookProps2.v
theories/DataFileSpec.v
theories/DataFileModel.v
theories/DataFileText.v
theories/DataFileLemmas.v
theories/DataFileLemmas2.v
theories/DataFileProps.v
theories/FloatStreamModel.v
theories/FloatStreamText.v
theories/FloatStreamLemmas.v
theories/FloatStreamProps.v
theories/DummySpec.v
theories/DummyModel.v
theories/DummyLemmas.v
theories/DummyProps.v
theories/ReportSpec.v
theories/ReportModel.v
theories/ReportLemmas.v
theories/ReportProps.v
theories/TimeSpec.v
theories/TimeModel.v
theories/TimeText.v
theories/TimeLemmas.v
theories/TimeProps.v
theories/FaultSpec.v
theories/FaultModel.v
theories/FaultText.v
theories/FaultLemmas.v
theories/FaultProps.v
theories/MemoryModel.v
theories/MemoryText.v
theories/MemoryLemmas.v
theories/MemoryProps.v
theories/SharedSpec.v
theories/SharedModel.v
theories/SharedText.v
theories/SharedLemmas.v
theories/SharedProps.v
theories/RetrySpec.v
theories/RetryModel.v
theories/RetryText.v
theories/RetryLemmas.v
theories/RetryProps.v
theories/OrderSpec.v
theories/OrderText.v
theories/OrderLemmas.v
theories/OrderProps.v
theories/DemoModel.v
theories/DemoSpec.v
theories/TalkText.v
theories/TalkLemmas.v
theories/TalkProps.v
theories/TieSpec.v
theories/TieModel.v
theories/TieText.v
theories/TieLemmas.v
theories/TieProps.v
theories/TypeSpec.v
theories/TypeModel.v
theories/TypeLemmas.v
theories/TypeLemmas2.v
theories/TypeProps.v
theories/ChainSpec.v
theories/ChainModel.v
theories/ChainLemmas.v
theories/ChainProps.v
theories/ThreadSpec.v
theories/ThreadModel.v
theories/ThreadLemmas.v
theories/ThreadProps.v
theories/CrashSpec.v
theories/CrashModel.v
theories/CrashLemmas.v
theories/CrashLemmas2.v
theories/CrashProps.v
theories/TornSpec.v
theories/TornModel.v
theories/TornLemmas.v
theories/TornLemmas2.v
theories/TornProps.v
theories/SuiteModel.v
theories/SuiteModel2.v
theories/SuiteSpec.v
theories/SuiteLemmas.v
theories/SuiteLemmas2.v
theories/SuiteProps.v
theories/StepModel.v
theories/StepProps.v
theories/PortText.v
theories/PortLemmas.v
theories/PortLemmas2.v
theories/PortProps.v
theories/LogSpec.v
theories/LogModel.v
theories/LogLemmas.v
theories/LogLemmas2.v
theories/LogLemmas3.v
theories/LogProps.v
theories/PowerSpec.v
theories/PowerModel.v
theories/PowerLemmas.v
theories/PowerProps.v
theories/ManualSpec.v
theories/ManualModel.v
theories/ManualLemmas.v
theories/ManualLemmas2.v
theories/ManualProps.v
theories/AlikeSpec.v
theories/AlikeLemmas.v
theories/AlikeProps.v
theories/ReuseSpec.v
theories/ReuseLemmas.v
theories/ReuseProps.v
theories/AcceptSpec.v
theories/AcceptLemmas.v
theories/AcceptProps.v
theories/KindLemmas.v
theories/KindProps.v
theories/CutSpec.v
theories/CutLemmas.v
theories/CutProps.v
theories/RecoverSpec.v
theories/RecoverModel.v
theories/RecoverLemmas.v
theories/RecoverLemmas2.v
theories/RecoverProps.v
theories/SameText.v
theories/SameLemmas.v
theories/SameProps.v
theories/BookSpec.v
theories/BookText.v
theories/BookLemmas.v
theories/BookProps.v
theories/BlendSpec.v
theories/BlendText.v
theories/BlendLemmas.v
theories/BlendProps.v
theories/TwinSpec.v
theories/TwinText.v
theories/TwinLemmas.v
theories/TwinProps.v
theories/FollowSpec.v
theories/FollowText.v
theories/FollowLemmas.v
theories/FollowLemmas2.v
theories/FollowProps.v
theories/ThriftSpec.v
theories/ThriftText.v
theories/ThriftLemmas.v
theories/ThriftLemmas2.v
theories/ThriftProps.v
theories/BackupText.v
theories/BackupLemmas.v
theories/BackupLemmas2.v
theories/BackupProps.v
theories/PatienceText.v
theories/PatienceLemmas.v
theories/PatienceLemmas2.v
theories/PatienceProps.v
theories/TypedLemmas.v
theories/TypedProps.v
theories/RankSpec.v
theories/RankLemmas.v
theories/RankProps.v
theories/DiarySpec.v
theories/DiaryText.v
theories/DiaryLemmas.v
theories/DiaryProps.v
theories/ResumeSpec.v
theories/ResumeText.v
theories/ResumeLemmas.v
theories/ResumeLemmas2.v
theories/ResumeLemmas3.v
theories/ResumeProps.v
theories/PairSpec.v
theories/PairText.v
theories/PairLemmas.v
theories/PairLemmas2.v
theories/PairProps.v
theories/AnySpec.v
theories/AnyText.v
theories/AnyLemmas.v
theories/AnyLemmas2.v
theories/AnyProps.v
theories/LocaleSpec.v
theories/LocaleModel.v
theories/LocaleLemmas.v
theories/LocaleProps.v
theories/OperandModel.v
theories/OperandProps.v
theories/LongSpec.v
theories/LongLemmas.v
theories/LongLemmas2.v
theories/LongProps.v
theories/LongFileSpec.v
theories/LongFileLemmas.v
theories/LongFileProps.v
theories/CursorSpec.v
theories/CursorLemmas.v
theories/CursorProps.v
theories/FileCursorSpec.v
theories/FileCursorLemmas.v
theories/FileCursorProps.v
theories/RankLemmas2.v
theories/RankProps2.v
theories/ReadBackLemmas.v
theories/ReadBackProps.v
theories/SortSpec.v
theories/SortLemmas.v
theories/SortProps.v
theories/SearchSpec.v
theories/SearchLemmas.v
theories/SearchProps.v
theories/PenSpec.v
theories/PenLemmas.v
theories/PenProps.v
theories/FilePenSpec.v
theories/FilePenLemmas.v
theories/FilePenProps.v
theories/HandsSpec.v
theories/HandsLemmas.v
theories/HandsProps.v
theories/CrowdSpec.v
theories/CrowdText.v
theories/CrowdLemmas.v
theories/CrowdProps.v
theories/RelaySpec.v
theories/RelayText.v
theories/RelayLemmas.v
theories/RelayProps.v
theories/EarlySpec.v
theories/EarlyText.v
theories/EarlyLemmas.v
theories/EarlyProps.v
theories/PassSpec.v
theories/PassText.v
theories/PassLemmas.v
theories/PassLemmas2.v
theories/PassProps.v
theories/LateText.v
theories/LateLemmas.v
theories/LateLemmas2.v
theories/LateLemmas3.v
theories/LateProps.v
theories/MirrorSpec.v
theories/MirrorText.v
theories/MirrorLemmas.v
theories/MirrorProps.v
theories/JournalSpec.v
theories/JournalProps.v
theories/RenewSpec.v
theories/RenewText.v
theories/RenewLemmas.v
theories/RenewProps.v
theories/ChronicleSpec.v
theories/ChronicleProps.v
theories/MendSpec.v
theories/MendText.v
theories/MendLemmas.v
theories/MendProps.v
