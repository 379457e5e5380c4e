-Q theories Verif
theories/CBase.v
theories/StrModel.v
theories/StrSpec.v
theories/StrProofs.v
theories/StrProps.v
theories/OptModel.v
theories/OptSpec.v
theories/OptProofs.v
theories/OptProps.v
theories/SuiteModel.v
theories/SuiteSpec.v
theories/SuiteProofs.v
theories/SuiteBuildProofs.v
theories/SuiteProps.v
theories/FsModel.v
theories/FsSpec.v
theories/FsProofs.v
theories/FsRemoveProofs.v
theories/FsProps.v
theories/MoModel.v
theories/MoSpec.v
theories/MoProofs.v
theories/MoProps.v
theories/FrontSpec.v
theories/ArchModel.v
theories/ArchSpec.v
theories/FrontProofs.v
theories/AreaProofs.v
theories/KeptProofs.v
theories/ArchProofs.v
theories/ArchProps.v
theories/BiobjModel.v
theories/BiobjSpec.v
theories/BiobjTreeProofs.v
theories/BiobjDistProofs.v
theories/BiobjProofs.v
theories/BiobjProps.v
theories/DblModel.v
theories/DblSpec.v
theories/DblProofs.v
theories/TrigModel.v
theories/TrigSpec.v
theories/TrigProofs.v
theories/LogProofs.v
theories/EvProofs.v
theories/DigitProofs.v
theories/TrigProps.v
theories/ProbModel.v
theories/ProbSpec.v
theories/ProbProofs.v
theories/ProbProps.v
theories/BbobModel.v
theories/BbobSpec.v
theories/BbobProofs.v
theories/BbobFileProofs.v
theories/BbobRunProofs.v
theories/BbobTargetProofs.v
theories/BbobProps.v
theories/BbobTaintProps.v
theories/BbobPartProofs.v
theories/BbobPartProps.v
theories/IdModel.v
theories/IdSpec.v
theories/IdProofs.v
theories/IdProps.v
theories/PairModel.v
theories/PairSpec.v
theories/PairProofs.v
theories/PairProps.v
theories/RandModel.v
theories/RandSpec.v
theories/RandProofs.v
theories/LegacyProofs.v
theories/PeriodProofs.v
theories/RandProps.v
theories/OptimumSpec.v
theories/OptimumProofs.v
theories/OptimumProps.v
theories/PermModel.v
theories/PermSpec.v
theories/PermProofs.v
theories/PermProps.v
theories/BlockModel.v
theories/BlockSpec.v
theories/BlockProofs.v
theories/OrthoProofs.v
theories/BlockProps.v
theories/HeapModel.v
theories/HeapSpec.v
theories/HeapProofs.v
theories/HeapProps.v
theories/LogsModel.v
theories/LogsSpec.v
theories/LogsProofs.v
theories/LogsProps.v
theories/ObsModel.v
theories/ObsSpec.v
theories/ObsProofs.v
theories/ObsProps.v
theories/MixModel.v
theories/MixSpec.v
theories/MixProofs.v
theories/MixExact.v
theories/MixProps.v
theories/NoiseModel.v
theories/NoiseSpec.v
theories/NoiseProofs.v
theories/NoiseRunProofs.v
theories/NoiseBoundProofs.v
theories/NoiseProps.v
theories/AvlModel.v
theories/AvlSpec.v
theories/AvlTreeProofs.v
theories/AvlMemProofs.v
theories/AvlRebalProofs.v
theories/AvlInsertProofs.v
theories/AvlDeleteProofs.v
theories/AvlSearchProofs.v
theories/AvlRunProofs.v
theories/AvlProps.v
theories/FunModel.v
theories/FunSpec.v
theories/FunProofs.v
theories/FunOptima.v
theories/FunOptima2.v
theories/FunOptima3.v
theories/FunSchwefel.v
theories/FunOptima4.v
theories/FunProps.v
theories/FunDocSpec.v
theories/FunDocProofs.v
theories/FunDocProofs2.v
theories/FunDocAll.v
theories/FunDocProps.v
theories/ConsModel.v
theories/ConsSpec.v
theories/ConsProofs.v
theories/ConsBuildProofs.v
theories/ConsObjProofs.v
theories/ConsSuiteProofs.v
theories/ConsExistProofs.v
theories/ConsProps.v
theories/NormModel.v
theories/NormSpec.v
theories/NormProofs.v
theories/NormValueProofs.v
theories/NormCloseProofs.v
theories/NormProps.v
theories/LargeModel.v
theories/LargeSpec.v
theories/LargeProofs.v
theories/LargeDoc.v
theories/LargeOptima.v
theories/LargeProps.v
theories/StackModel.v
theories/StackSpec.v
theories/StackProofs.v
theories/StackProps.v
theories/BoxModel.v
theories/BoxSpec.v
theories/BoxProps.v
theories/IndexModel.v
theories/IndexSpec.v
theories/IndexProofs.v
theories/IndexRunProofs.v
theories/IndexProps.v
theories/FolderModel.v
theories/FolderSpec.v
theories/FolderProofs.v
theories/FolderRunProofs.v
theories/FolderLineProofs.v
theories/FolderProps.v
theories/MixFunModel.v
theories/MixFunSpec.v
theories/MixFunProofs.v
theories/MixFunProps.v
theories/NoisyFunModel.v
theories/NoisyFunSpec.v
theories/NoisyFunProofs.v
theories/NoisyFunProps.v
theories/BrentModel.v
theories/BrentSpec.v
theories/BrentProofs.v
theories/BrentInvProofs.v
theories/BrentProps.v
theories/OldModel.v
theories/OldSpec.v
theories/OldProofs.v
theories/OldRunProofs.v
theories/OldProps.v
theories/OldIndexModel.v
theories/OldIndexSpec.v
theories/OldIndexProofs.v
theories/OldIndexRunProofs.v
theories/OldIndexMemProofs.v
theories/OldIndexProps.v
theories/MemModel.v
theories/MemSuiteModel.v
theories/MemSpec.v
theories/MemProofs.v
theories/MemBuildProofs.v
theories/MemBuild2Proofs.v
theories/MemBuild3Proofs.v
theories/MemSuiteProofs.v
theories/MemSuite2Proofs.v
theories/MemSessionProofs.v
theories/MemProps.v
theories/PyExpModel.v
theories/PyExpSpec.v
theories/PyBatchProofs.v
theories/PyRepProofs.v
theories/PyLoopProofs.v
theories/PyExpProps.v
theories/PyAnyModel.v
theories/PyAnySpec.v
theories/PyAnyProps.v
theories/PySuiteModel.v
theories/PySuiteSpec.v
theories/PySuiteProofs.v
theories/PySuiteProofs2.v
theories/PyFitsProofs.v
theories/PySuiteProps.v
theories/PyOptModel.v
theories/PyOptSpec.v
theories/PyOptProofs.v
theories/PyOptProofs2.v
theories/PyOptProps.v
theories/PyArgModel.v
theories/PyArgSpec.v
theories/PyArgProofs.v
theories/PyArgProps.v
theories/PyPropModel.v
theories/PyPropSpec.v
theories/PyPropProps.v
theories/PyBareModel.v
theories/PyBareProps.v
theories/PySearchModel.v
theories/PySearchSpec.v
theories/PySearchProofs.v
theories/PySearchProps.v
theories/PyInfoModel.v
theories/PyInfoSpec.v
theories/PyInfoProps.v
theories/LoopModel.v
theories/LoopSpec.v
theories/LoopProps.v
theories/RustModel.v
theories/RustSpec.v
theories/RustProofs.v
theories/RustProps.v
theories/BindModel.v
theories/BindSpec.v
theories/BindProps.v
theories/MexModel.v
theories/MexSpec.v
theories/MexProps.v
theories/DemoModel.v
theories/DemoSpec.v
theories/DemoProofs.v
theories/DemoProps.v
theories/GridModel.v
theories/GridSpec.v
theories/GridProps.v
theories/TimingModel.v
theories/TimingSpec.v
theories/TimingProps.v
theories/MsgModel.v
theories/MsgSpec.v
theories/MsgProps.v
theories/ReportModel.v
theories/ReportSpec.v
theories/ReportProps.v
theories/CatalogSpec.v
theories/CatalogProps.v
theories/MiniModel.v
theories/MiniSpec.v
theories/MiniProps.v
theories/TimeModel.v
theories/TimeSpec.v
theories/TimeProofs.v
theories/TimeProps.v
theories/ConsLengthProps.v
