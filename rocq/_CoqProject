-Q theories Verif

theories/Base.v
theories/TimeModel.v
theories/TimeSpec.v
theories/TimeProofs.v
theories/TimeProofs2.v
theories/TimeProofs3.v
theories/TimeProofs4.v
theories/TimeProofs5.v
theories/TimeProps.v
theories/BCModel.v
theories/BCSpec.v
theories/BCProofs.v
theories/BCProps.v
theories/LimiterModel.v
theories/LimiterSpec.v
theories/LimiterProofs.v
theories/LimiterProofs2.v
theories/LimiterProps.v
theories/Classic1DModel.v
theories/Classic1DSpec.v
theories/Classic1DProofs.v
theories/Classic1DProofs2.v
theories/Classic1DProofs3.v
theories/Classic1DProofs4.v
theories/Classic1DProofs5.v
theories/Classic1DProps.v
theories/GeometryModel.v
theories/GeometrySpec.v
theories/GeometryProofs.v
theories/GeometryProofs2.v
theories/GeometryProps.v
theories/SharpModel.v
theories/SharpSpec.v
theories/SharpProofs.v
theories/SharpProps.v
theories/MultiModel.v
theories/MultiSpec.v
theories/MultiProofs.v
theories/MultiProofs2.v
theories/MultiProofs3.v
theories/MultiProofs4.v
theories/MultiProps.v
theories/MultiProps2.v
theories/WenoModel.v
theories/WenoSpec.v
theories/WenoProofs.v
theories/WenoProps.v
theories/SemiModel.v
theories/SemiSpec.v
theories/SemiProofs.v
theories/SemiProofs2.v
theories/SemiProps.v
theories/ParallelModel.v
theories/ParallelSpec.v
theories/ParallelProofs.v
theories/ParallelProofs2.v
theories/ParallelProofs3.v
theories/ParallelProofs4.v
theories/ParallelProps.v
theories/SweepModel.v
theories/SweepSpec.v
theories/SweepProofs.v
theories/SweepProofs2.v
theories/SweepProofs3.v
theories/SweepProofs4.v
theories/SweepProofs5.v
theories/SweepProofs6.v
theories/SweepProps.v
theories/UnsplitModel.v
theories/UnsplitSpec.v
theories/UnsplitProofs.v
theories/UnsplitProofs2.v
theories/UnsplitProofs3.v
theories/UnsplitProps.v
theories/WorkModel.v
theories/WorkProps.v
theories/FormatModel.v
theories/FormatSpec.v
theories/FormatProofs.v
theories/FormatProofs2.v
theories/AsciiModel.v
theories/AsciiSpec.v
theories/AsciiProofs.v
theories/AsciiProofs2.v
theories/AsciiProofs3.v
theories/AsciiProps.v
theories/BinaryModel.v
theories/BinarySpec.v
theories/BinaryProofs.v
theories/BinaryProofs2.v
theories/BinaryProps.v
theories/ControllerModel.v
theories/ControllerSpec.v
theories/ControllerProofs.v
theories/ControllerProofs2.v
theories/ControllerProps.v
theories/GaugeModel.v
theories/GaugeSpec.v
theories/GaugeProofs.v
theories/GaugeProofs2.v
theories/GaugeProps.v
theories/CopyModel.v
theories/CopySpec.v
theories/CopyProofs.v
theories/CopyProps.v
theories/OptionModel.v
theories/OptionSpec.v
theories/OptionProps.v
theories/RegressModel.v
theories/RegressSpec.v
theories/RegressProofs.v
theories/RegressProps.v
theories/ReconModel.v
theories/ReconSpec.v
theories/ReconProofs.v
theories/ReconProps.v
theories/MSemiModel.v
theories/MSemiSpec.v
theories/MSemiProofs.v
theories/MSemiProofs2.v
theories/MSemiProps.v
theories/MSemiProps2.v
theories/RunModel.v
theories/RunSpec.v
theories/RunProofs.v
theories/RunProps.v
theories/RunProps2.v
theories/Unsplit3Model.v
theories/Unsplit3Spec.v
theories/Unsplit3Proofs.v
theories/Unsplit3Proofs2.v
theories/Unsplit3Proofs3.v
theories/Unsplit3Proofs4.v
theories/Unsplit3Props.v
theories/AliasModel.v
theories/AliasSpec.v
theories/AliasProofs.v
theories/AliasProofs2.v
theories/AliasProofs3.v
theories/AliasProps.v
theories/LifeModel.v
theories/LifeSpec.v
theories/LifeProofs.v
theories/LifeProps.v
theories/SettingsModel.v
theories/SettingsSpec.v
theories/SettingsProofs.v
theories/SettingsProps.v
theories/SolnModel.v
theories/SolnSpec.v
theories/SolnProofs.v
theories/SolnProps.v
theories/HdfModel.v
theories/HdfSpec.v
theories/HdfProofs.v
theories/HdfProps.v
theories/HiWenoTables.v
theories/HiWenoModel.v
theories/HiWenoSpec.v
theories/HiWenoProofs.v
theories/HiWenoProofs2.v
theories/HiWenoProofs3.v
theories/HiWenoProps.v
theories/PetscModel.v
theories/PetscSpec.v
theories/PetscProofs.v
theories/PetscProps.v
theories/GFileModel.v
theories/GFileSpec.v
theories/GFileProofs.v
theories/GFileProps.v
theories/GConvModel.v
theories/GConvSpec.v
theories/GConvProofs.v
theories/GConvProps.v
theories/ForestModel.v
theories/ForestSpec.v
theories/ForestProofs.v
theories/ForestProps.v
theories/BuildModel.v
theories/BuildSpec.v
theories/BuildProofs.v
theories/BuildProps.v
theories/PStateModel.v
theories/PStateSpec.v
theories/PStateProofs.v
theories/PStateProps.v
theories/ArgModel.v
theories/ArgSpec.v
theories/ArgProps.v
theories/VtkModel.v
theories/VtkSpec.v
theories/VtkProofs.v
theories/VtkProps.v
theories/AuxSpec.v
theories/AuxProps.v
theories/OptsModel.v
theories/OptsSpec.v
theories/OptsProps.v
theories/CtuSpec.v
theories/CtuProofs.v
theories/CtuProofs2.v
theories/CtuProofs3.v
theories/CtuProps.v
theories/GFileBinProps.v
theories/DerivedAsciiProps.v
theories/DerivedHdfProps.v
theories/CrashModel.v
theories/CrashSpec.v
theories/CrashProofs.v
theories/CrashProofs2.v
theories/CrashProofs3.v
theories/CrashProps.v
theories/WellFormedProps.v
theories/SimSpec.v
theories/SymSpec.v
theories/SymProofs.v
theories/SymProofs2.v
theories/SymProofs3.v
theories/SimProofs.v
theories/SymProofs4.v
theories/SymProps.v
theories/RestartModel.v
theories/RestartSpec.v
theories/RestartProofs.v
theories/RestartProofs2.v
theories/RestartProofs3.v
theories/RestartProps.v
theories/Ctu3Spec.v
theories/Ctu3Proofs.v
theories/Ctu3Proofs2.v
theories/Ctu3Proofs3.v
theories/Ctu3Props.v
theories/Par2Model.v
theories/Par2Spec.v
theories/Par2Proofs.v
theories/Par2Proofs2.v
theories/Par2Proofs3.v
theories/Par2Proofs4.v
theories/Par2Proofs5.v
theories/Par2Proofs6.v
theories/Par2Proofs7.v
theories/Par2Proofs8.v
theories/Par2Props.v
theories/PHdfModel.v
theories/PHdfSpec.v
theories/PHdfProofs.v
theories/PHdfProps.v
theories/PSharpModel.v
theories/PSharpSpec.v
theories/PSharpProofs.v
theories/PSharpProofs2.v
theories/PSharpProofs3.v
theories/PSharpProofs4.v
theories/PSharpProofs5.v
theories/PSharpProps.v
theories/LinSpec.v
theories/LinProofs.v
theories/LinProofs2.v
theories/LinProps.v
theories/MonoSpec.v
theories/MonoProofs.v
theories/MonoProps.v
theories/DepSpec.v
theories/DepProofs.v
theories/DepProps.v
theories/CapaSpec.v
theories/CapaProofs.v
theories/CapaProps.v
theories/EquilSpec.v
theories/EquilProofs.v
theories/EquilProps.v
theories/EquilProofs2.v
theories/EquilProps2.v
theories/EquilProofs3.v
theories/EquilProps3.v
theories/KeepProofs.v
theories/KeepProps.v
theories/MEquilSpec.v
theories/MEquilProofs.v
theories/MEquilProps.v
theories/SEquilSpec.v
theories/SEquilProofs.v
theories/SEquilProps.v
theories/UEquilSpec.v
theories/UEquilProofs.v
theories/UEquilProps.v
theories/U3EquilSpec.v
theories/U3EquilProofs.v
theories/U3EquilProps.v
