-Q theories Verif
theories/Base.v
theories/ConfigModel.v
theories/LexSpec.v
theories/LexProofs.v
theories/InterpSpec.v
theories/InterpProofs.v
theories/RoundTripProofs.v
theories/BlockSpec.v
theories/BlockProofs.v
theories/RecoveryProofs.v
theories/ConfigProofs.v
theories/SettingsModel.v
theories/SettingsProofs.v
theories/ConfigProps.v
theories/SdtModel.v
theories/ScalarModel.v
theories/ScalarSpec.v
theories/ScalarProofs.v
theories/ScalarProps.v
theories/NumText.v
theories/DoubleText.v
theories/SdtSpec.v
theories/SdtProofs.v
theories/SdtReadProofs.v
theories/SdtUseProofs.v
theories/SdtTextSpec.v
theories/SdtTextProofs.v
theories/SdtTextProps.v
theories/SessionModel.v
theories/SessionSpec.v
theories/SessionProofs.v
theories/SessionProps.v
theories/SFileModel.v
theories/SFileProofs.v
theories/SFileProps.v
theories/TypedModel.v
theories/TypedSpec.v
theories/TypedProofs.v
theories/TypedProps.v
theories/HdfModel.v
theories/HdfSpec.v
theories/HdfProofs.v
theories/HdfProps.v
theories/TimeModel.v
theories/TimeProofs.v
theories/TimeProps.v
theories/AlgebraModel.v
theories/AlgebraProofs.v
theories/AlgebraProps.v
theories/IntegratorModel.v
theories/IntegratorSpec.v
theories/IntegratorProofs.v
theories/StepProofs.v
theories/DenseProofs.v
theories/TableauProofs.v
theories/IntegratorUse.v
theories/IntegratorProps.v
theories/ConvergeSpec.v
theories/ConvergeProofs.v
theories/ConvergeProps.v
theories/ImageModel.v
theories/ImageSpec.v
theories/ImageProofs.v
theories/ImageProps.v
theories/DomainModel.v
theories/DomainSpec.v
theories/DomainProofs.v
theories/DomainProps.v
theories/AnalyticalModel.v
theories/AnalyticalSpec.v
theories/AnalyticalProofs.v
theories/AnalyticalProps.v
theories/FieldLineSpec.v
theories/FieldLineProofs.v
theories/FieldLineProps.v
theories/NumericModel.v
theories/NumericSpec.v
theories/NumericProofs.v
theories/NumericArrays.v
theories/NumericProps.v
theories/DistributionModel.v
theories/DistributionSpec.v
theories/DistributionProofs.v
theories/DistributionBuild.v
theories/DistributionUse.v
theories/DistributionProps.v
theories/CodeModel.v
theories/CodeSpec.v
theories/CodeProofs.v
theories/CodeUse.v
theories/GocodeProofs.v
theories/CodeProps.v
theories/LoaderModel.v
theories/LoaderSpec.v
theories/LoaderProofs.v
theories/LoaderProps.v
theories/ProfileModel.v
theories/ProfileSpec.v
theories/ProfileProps.v
theories/PeakModel.v
theories/PeakSpec.v
theories/PeakProps.v
theories/PeakSumSpec.v
theories/PeakSumProofs.v
theories/PeakSumProps.v
theories/PitchSpec.v
theories/PitchProofs.v
theories/PitchProps.v
theories/OwnModel.v
theories/OwnSpec.v
theories/OwnProofs.v
theories/OwnProps.v
theories/PosModel.v
theories/PosSpec.v
theories/PosProofs.v
theories/PosProofs2.v
theories/PosProofs3.v
theories/PosProofs4.v
theories/PosProps.v
theories/ConfObjModel.v
theories/ConfObjSpec.v
theories/ConfObjProofs.v
theories/ConfObjProps.v
theories/BufModel.v
theories/BufSpec.v
theories/BufProofs.v
theories/BufProps.v
theories/FieldOwnModel.v
theories/FieldOwnSpec.v
theories/FieldOwnProofs.v
theories/FieldOwnProofs2.v
theories/FieldOwnProps.v
theories/CodeLifeModel.v
theories/CodeLifeSpec.v
theories/CodeLifeProofs.v
theories/CodeLifeProofs2.v
theories/CodeLifeProps.v
theories/SetObjModel.v
theories/SetObjSpec.v
theories/SetObjProofs.v
theories/SetObjProofs2.v
theories/SetObjProofs3.v
theories/SetObjProofs4.v
theories/SetObjProps.v
theories/ErrModel.v
theories/ErrSpec.v
theories/ErrProofs.v
theories/ErrSites.v
theories/ErrProps.v
theories/ProgModel.v
theories/ProgSpec.v
theories/ProgProofs.v
theories/ProgProps.v
theories/FieldFileModel.v
theories/FieldFileSpec.v
theories/FieldFileProofs.v
theories/FieldFileProps.v
theories/RoundModel.v
theories/RoundSpec.v
theories/RoundProofs.v
theories/RoundProps.v
theories/DistShareModel.v
theories/DistShareSpec.v
theories/DistShareProofs.v
theories/DistShareProps.v
theories/ImageRoundModel.v
theories/ImageRoundSpec.v
theories/ImageRoundProofs.v
theories/ImageRoundProps.v
theories/DistFileModel.v
theories/DistFileSpec.v
theories/DistFileProofs.v
theories/DistFileProps.v
theories/CodeFileModel.v
theories/CodeFileSpec.v
theories/CodeFileProofs.v
theories/CodeFileProps.v
theories/AlgebraRoundModel.v
theories/AlgebraRoundSpec.v
theories/AlgebraRoundProofs.v
theories/AlgebraRoundProps.v
theories/ApproxModel.v
theories/ApproxSpec.v
theories/ApproxProofs.v
theories/ApproxProps.v
theories/RoundStepModel.v
theories/RoundStepSpec.v
theories/RoundStepProofs.v
theories/RoundStepProps.v
theories/OrderSpec.v
theories/OrderProofs.v
theories/OrderProps.v
theories/IntegratorHeapModel.v
theories/IntegratorHeapSpec.v
theories/IntegratorHeapProofs.v
theories/IntegratorHeapProps.v
theories/EquationSpec.v
theories/EquationProofs.v
theories/EquationProps.v
theories/FieldCopyModel.v
theories/FieldCopySpec.v
theories/FieldCopyProofs.v
theories/FieldCopyProps.v
