-Q theories Verif
theories/Base.v
theories/BaseLemmas.v
theories/MemViewModel.v
theories/MemViewSpec.v
theories/MemViewProofs.v
theories/MemViewProps.v
theories/ByteIOModel.v
theories/ByteIOSpec.v
theories/ByteIOProofs.v
theories/ByteIOProps.v
theories/Base16Model.v
theories/Base16Spec.v
theories/Base16Proofs.v
theories/Base16Props.v
theories/Base64Model.v
theories/Base64Spec.v
theories/Base64Proofs.v
theories/Base64Props.v
theories/InPlaceModel.v
theories/InPlaceProofs.v
theories/InPlaceSharp.v
theories/InPlaceSharp64.v
theories/InPlaceProps.v
theories/LexSpec.v
theories/LexProofs.v
theories/AtomModel.v
theories/AtomSpec.v
theories/AtomProofs.v
theories/AtomProps.v
theories/UUIDModel.v
theories/UUIDSpec.v
theories/UUIDProofs.v
theories/UUIDProps.v
theories/StringSpec.v
theories/StringViewModel.v
theories/StringViewProofs.v
theories/StringViewProps.v
theories/StringModel.v
theories/StringProofs.v
theories/StringProps.v
theories/PathModel.v
theories/PathSpec.v
theories/PathProofs.v
theories/PathProps.v
theories/FmtModel.v
theories/FmtSpec.v
theories/FmtProofs.v
theories/BuilderModel.v
theories/BuilderSpec.v
theories/BuilderProofs.v
theories/BuilderProps.v
theories/VersionModel.v
theories/VersionSpec.v
theories/VersionProofs.v
theories/VersionProps.v
theories/DialModel.v
theories/DialProps.v
theories/MemoryModel.v
theories/MemorySpec.v
theories/MemoryProofs.v
theories/MemoryProps.v
theories/ContainerModel.v
theories/ContainerSpec.v
theories/ContainerProofs.v
theories/ContainerProps.v
theories/SpanModel.v
theories/SpanSpec.v
theories/SpanProps.v
theories/DictModel.v
theories/DictSpec.v
theories/DictProps.v
theories/OptResModel.v
theories/OptResSpec.v
theories/OptResProofs.v
theories/OptResProps.v
theories/HashModel.v
theories/HashSpec.v
theories/HashProofs.v
theories/HashBlockProofs.v
theories/HashBlock2Proofs.v
theories/HashChainProofs.v
theories/HashProps.v
theories/MurmurModel.v
theories/MurmurSpec.v
theories/MurmurProofs.v
theories/MurmurProps.v
theories/EnvModel.v
theories/EnvSpec.v
theories/EnvProofs.v
theories/EnvProps.v
theories/ErrorModel.v
theories/ErrorProps.v
theories/ExceptionModel.v
theories/ExceptionSpec.v
theories/ExceptionProofs.v
theories/ExceptionProps.v
theories/ArrayViewModel.v
theories/ArrayViewSpec.v
theories/ArrayViewProofs.v
theories/ArrayViewProps.v
theories/CharModel.v
theories/CharSpec.v
theories/CharProofs.v
theories/CharProps.v
theories/OutputModel.v
theories/OutputProps.v
theories/RandomModel.v
theories/RandomProps.v
theories/RandomAllProps.v
theories/UUIDShortProps.v
theories/UUIDProgModel.v
theories/UUIDProgSpec.v
theories/UUIDProgProofs.v
theories/UUIDProgProps.v
theories/LockModel.v
theories/LockProps.v
theories/LockAllProps.v
theories/StringObjModel.v
theories/StringObjSpec.v
theories/StringObjProofs.v
theories/StringObjProps.v
theories/PathAllocModel.v
theories/PathAllocProps.v
theories/PathIterModel.v
theories/PathIterSpec.v
theories/PathIterProofs.v
theories/PathIterProps.v
theories/PathNeedProps.v
theories/EmptyNeedleProps.v
theories/StreamObjModel.v
theories/StreamObjSpec.v
theories/StreamObjProofs.v
theories/StreamObjProps.v
theories/ContainerValueModel.v
theories/ContainerValueSpec.v
theories/ContainerValueProofs.v
theories/ContainerValueProps.v
theories/TextLawSpec.v
theories/TextLawProps.v
theories/ViewsModel.v
theories/ViewsSpec.v
theories/ViewsProofs.v
theories/ViewsProps.v
theories/SystemModel.v
theories/SystemSpec.v
theories/SystemProofs.v
theories/SystemStepProofs.v
theories/SystemOpProofs.v
theories/SystemOp2Proofs.v
theories/SystemOp3Proofs.v
theories/SystemPathProofs.v
theories/SystemProps.v
theories/TextOpsModel.v
theories/TextOpsSpec.v
theories/TextOpsProofs.v
theories/TextOpsProps.v
theories/TypedModel.v
theories/TypedSpec.v
theories/TypedProofs.v
theories/TypedProps.v
theories/TypedSliceProps.v
theories/ParseSpec.v
theories/ParseProofs.v
theories/ParseProps.v
theories/VersionAllProps.v
theories/PathLawSpec.v
theories/PathLawProps.v
theories/CodecSpec.v
theories/CodecProofs.v
theories/CodecProps.v
theories/CompareModel.v
theories/CompareProps.v
theories/SizesProps.v
theories/BuiltSpec.v
theories/BuiltProps.v
theories/WriterProps.v
theories/ColumnsSpec.v
theories/ColumnsProps.v
theories/LedgerSpec.v
theories/LedgerProps.v
theories/AtomAllProps.v
theories/BuilderAllProps.v
theories/EnvAllSpec.v
theories/EnvAllProps.v
theories/EnvWalkProps.v
theories/EnvIterModel.v
theories/EnvIterSpec.v
theories/EnvIterProps.v
theories/ExceptionAllProps.v
theories/AssertModel.v
theories/AssertProps.v
theories/CompareAllSpec.v
theories/CompareAllProps.v
theories/PathTextProps.v
theories/DialAllProps.v
theories/PosixModel.v
theories/PosixProps.v
theories/TextSortProps.v
theories/PathLossProps.v
theories/OptResAllProps.v
theories/ContainerAllSpec.v
theories/ContainerAllProofs.v
theories/ContainerAllProps.v
theories/ContainerValueAllProps.v
theories/DigestValueModel.v
theories/DigestValueSpec.v
theories/DigestValueProps.v
theories/CharAllProps.v
theories/AliasModel.v
theories/AliasSpec.v
theories/AliasProofs.v
theories/AliasProps.v
theories/RefsModel.v
theories/RefsSpec.v
theories/RefsProofs.v
theories/RefsProps.v
theories/RefResModel.v
theories/RefResSpec.v
theories/RefResProofs.v
theories/RefResProps.v
