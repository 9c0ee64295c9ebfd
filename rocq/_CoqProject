-Q theories Verif
theories/Base.v
theories/VlqModel.v
theories/VlqProofs.v
theories/VlqProps.v
theories/GfTables.v
theories/GfCert.v
theories/GfModel.v
theories/Clmul.v
theories/GfProofs.v
theories/GfInvProofs.v
theories/GfFieldProofs.v
theories/PolyProofs.v
theories/GfBytesProofs.v
theories/GfProps.v
theories/GroupModel.v
theories/GroupProofs.v
theories/SigmaModel.v
theories/ProverModel.v
theories/SigmaSpec.v
theories/SigmaProofs.v
theories/VerifierProofs.v
theories/NumberTheory.v
theories/GroupInstance.v
theories/SoundnessProofs.v
theories/EncodingProofs.v
theories/FsProofs.v
theories/SbProofs.v
theories/SigmaProps.v
theories/ProverProofs.v
theories/CommitProofs.v
theories/ProverProps.v
theories/MerkleModel.v
theories/MerkleSpec.v
theories/MerkleProofs.v
theories/BatchProofs.v
theories/MerkleProps.v
theories/IntBytes.v
theories/HeaderModel.v
theories/HeaderProps.v
theories/HeaderProps2.v
theories/PowModel.v
theories/PowProofs.v
theories/PowProps.v
theories/PowProps2.v
theories/NipopowModel.v
theories/NipopowProofs.v
theories/NipopowProps.v
theories/NipopowProveProofs.v
theories/NipopowProveProps.v
theories/NipopowSerModel.v
theories/NipopowSerProps.v
theories/P2pModel.v
theories/P2pProps.v
theories/TypeModel.v
theories/TypeProofs.v
theories/TypeProps.v
theories/BigIntModel.v
theories/BigIntProps.v
theories/MethodModel.v
theories/IrModel.v
theories/SerModel.v
theories/SerLocal.v
theories/SerSpec.v
theories/SerProofs.v
theories/SerSegSpec.v
theories/SerSeg.v
theories/SerProps.v
theories/ChainModel.v
theories/ChainProps.v
theories/TxModel.v
theories/TxProps.v
theories/SignModel.v
theories/SignProps.v
theories/WalletModel.v
theories/WalletProofs.v
theories/WalletProps.v
theories/AddressModel.v
theories/Base58Proofs.v
theories/AddressProps.v
theories/DeriveModel.v
theories/DeriveProps.v
theories/EqModel.v
theories/EqProofs.v
theories/PrintModel.v
theories/EvalModel.v
theories/EvalProofs.v
theories/EvalScope.v
theories/EvalSame.v
theories/EvalArithProps.v
theories/EvalTerm.v
theories/EvalEq.v
theories/EvalCollProps.v
theories/EvalProps.v
theories/EvalEqProps.v
theories/EvalAvlProps.v
theories/EvalDataProps.v
theories/EvalOpProps.v
theories/MultiSigProofs.v
theories/CoSignProofs.v
theories/CoSignProps.v
theories/ReadProofs.v
theories/ParseProofs.v
theories/ParseProps.v
theories/PrintProofs.v
theories/EvalPanic.v
theories/EvalPanicProps.v
theories/JsonModel.v
theories/JsonProofs.v
theories/JsonHintProofs.v
theories/SpendProps.v
theories/JsonProps.v
theories/JsonHintProps.v
theories/SegPanic.v
theories/VerifyPanicProps.v
theories/SelectProps.v
theories/CompilerModel.v
theories/CompilerProofs.v
theories/CompilerProps.v
theories/CompilerTreeProps.v
theories/TightenProps.v
theories/AllocModel.v
theories/AllocProps.v
theories/DiscoveryModel.v
theories/DiscoveryProofs.v
theories/DiscoveryProps.v
theories/DepthProps.v
theories/TypeSound.v
theories/TypeRead.v
theories/TypeSoundProps.v
theories/OperandProps.v
theories/ChromeModel.v
theories/ChromeProofs.v
theories/ChromeProps.v
theories/ChromeFindProps.v
theories/ChromeOnceProps.v
theories/HeapModel.v
theories/HeapProofs.v
theories/HeapProps.v
theories/TimerModel.v
theories/TimerProofs.v
theories/TimerProps.v
theories/BrowserModel.v
theories/BrowserProps.v
theories/IntervalModel.v
theories/IntervalProps.v
theories/WordsChineseSimplified.v
theories/WordsChineseTraditional.v
theories/WordsEnglish.v
theories/WordsFrench.v
theories/WordsItalian.v
theories/WordsJapanese.v
theories/WordsKorean.v
theories/WordsSpanish.v
theories/MnemonicModel.v
theories/MnemonicProofs.v
theories/MnemonicProps.v
theories/MnemonicProps2.v
theories/Eip12Model.v
theories/Eip12Proofs.v
theories/Eip12Props.v
theories/JsConvModel.v
theories/JsConvProps.v
theories/TermProps.v
theories/ChainGenModel.v
theories/ChainGenProps.v
theories/PrintTextModel.v
theories/PrintTextProofs.v
theories/PrintTextProps.v
theories/KeyringModel.v
theories/KeyringProps.v
theories/CHandleModel.v
theories/CHandleProps.v
theories/RequestModel.v
theories/RequestProps.v
theories/HelperModel.v
theories/HelperProps.v
theories/ScorexModel.v
theories/ScorexProps.v
theories/DeadlineModel.v
theories/DeadlineProps.v
theories/FetchModel.v
theories/FetchProps.v
