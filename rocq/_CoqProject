-Q theories Verif
theories/PyBase.v
theories/PyBaseFacts.v
theories/XDeriv.v
theories/SkinFrictionModel.v
theories/SkinFrictionProofs.v
theories/SkinFrictionProps.v
theories/FiniteDiffModel.v
theories/FiniteDiffProofs.v
theories/PPolyModel.v
theories/PPolyProofs.v
theories/ThwaitesFitsModel.v
theories/ThwaitesFitsProofs.v
theories/ThwaitesFitsProps.v
theories/InitialConditionModel.v
theories/InitialConditionProofs.v
theories/InitialConditionProps.v
theories/HeadModel.v
theories/CoreModel.v
theories/CoreSpec.v
theories/CoreProofs.v
theories/CoreHistoryProofs.v
theories/CoreRefute.v
theories/CoreProps.v
theories/HeadProofs.v
theories/OdeSpec.v
theories/HeadOdeProofs.v
theories/HeadArrayModel.v
theories/HeadArrayProofs.v
theories/HeadProps.v
theories/ThwaitesOdeProofs.v
theories/PositivityProofs.v
theories/ThwaitesOdeProps.v
theories/SimilarityModel.v
theories/SimilaritySpec.v
theories/SimilarityProofs.v
theories/SimilarityIntegralProofs.v
theories/SimilarityHistoryProofs.v
theories/SimilarityFlowProofs.v
theories/SimilarityProps.v
theories/PyText.v
theories/XFoilModel.v
theories/XFoilSpec.v
theories/XFoilProofs.v
theories/XFoilLoadProofs.v
theories/XFoilHistoryProofs.v
theories/XFoilQueryProofs.v
theories/XFoilProps.v
theories/StanfordModel.v
theories/StanfordSpec.v
theories/StanfordProofs.v
theories/StanfordLoadProofs.v
theories/StanfordHistoryProofs.v
theories/StanfordCaseProofs.v
theories/StanfordProps.v
theories/SplineSpec.v
theories/SplineProofs.v
theories/SplineProps.v
theories/WorkflowModel.v
theories/WorkflowSpec.v
theories/WorkflowProofs.v
theories/WorkflowRefute.v
theories/ReynoldsProofs.v
theories/PchipModel.v
theories/PchipProofs.v
theories/LocationProofs.v
theories/WorkflowProps.v
theories/UnitsSpec.v
theories/UnitsProofs.v
theories/ThwaitesArrayModel.v
theories/ThwaitesArraySpec.v
theories/ThwaitesArrayProofs.v
theories/UnitsProps.v
theories/SearchSpec.v
theories/SearchProofs.v
theories/SearchProps.v
theories/ProductProofs.v
theories/PicardProofs.v
theories/BlasiusPoly.v
theories/BlasiusProofs.v
theories/BlasiusSpec.v
theories/BlasiusFlowProofs.v
theories/BlasiusExistProofs.v
theories/BlasiusWallProofs.v
theories/BlasiusProps.v
theories/FloatModel.v
theories/FloatSpec.v
theories/FloatFacts.v
theories/FloatProofs.v
theories/FloatProps.v
theories/WellPosedProofs.v
theories/FitLipschitzProofs.v
theories/WellPosedSpec.v
theories/WellPosedOdeProofs.v
theories/LimitExistProofs.v
theories/WhiteExistProofs.v
theories/FlatPlateSpec.v
theories/FlatPlateProofs.v
theories/WellPosedProps.v
theories/AccelerationProofs.v
theories/UntilProofs.v
theories/SystemProofs.v
theories/HeadExistProofs.v
theories/HeadUntilProofs.v
theories/AccelerationProps.v
theories/PolyPos.v
theories/AgreementProofs.v
theories/AgreementProps.v
theories/TranslationSpec.v
theories/TranslationProofs.v
theories/LocalityProofs.v
theories/InvarianceProps.v
theories/OrderProofs.v
theories/OrderProps.v
theories/StabilityProofs.v
theories/SensitivityProofs.v
theories/StabilityProps.v
theories/FloatXFoilModel.v
theories/FloatXFoilSpec.v
theories/FloatXFoilProofs.v
theories/FloatXFoilProps.v
theories/HeadSensitivityProofs.v
theories/SamplingSpec.v
theories/SamplingProofs.v
theories/SamplingOdeProofs.v
theories/SamplingProps.v
theories/EffectModel.v
theories/EffectSpec.v
theories/EffectProofs.v
theories/EffectPureProofs.v
theories/EffectProps.v
theories/PointsSpec.v
theories/PointsProofs.v
theories/PointsProps.v
theories/ShapeProofs.v
theories/ShapeProps.v
theories/ThreadModel.v
theories/ThreadSpec.v
theories/ThreadProofs.v
theories/ThreadProps.v
theories/FloatThwaitesModel.v
theories/FloatThwaitesSpec.v
theories/FloatThwaitesProofs.v
theories/FloatFitsProofs.v
theories/FloatThwaitesProps.v
theories/CopyModel.v
theories/CopySpec.v
theories/CopyProofs.v
theories/CopyProps.v
theories/ProfileSpec.v
theories/ProfileProofs.v
theories/ProfileThickProofs.v
theories/ProfileEdgeProofs.v
theories/ProfileProps.v
theories/LinearFlowSpec.v
theories/LinearFlowProofs.v
theories/LinearFlowWitness.v
theories/LinearFlowProps.v
theories/SimilarityArrayModel.v
theories/SimilarityArraySpec.v
theories/SimilarityArrayProofs.v
theories/SimilarityArrayProps.v
theories/CompletedSpec.v
theories/CompletedProofs.v
theories/CompletedProps.v
theories/WedgeSpec.v
theories/WedgeProofs.v
theories/WedgeProps.v
theories/GradientSamplesProofs.v
theories/GradientSamplesProps.v
theories/FloatStanfordModel.v
theories/FloatStanfordSpec.v
theories/FloatStanfordProofs.v
theories/FloatStanfordProps.v
theories/FloatHeadModel.v
theories/FloatHeadSpec.v
theories/FloatScaleProofs.v
theories/FloatHeadProofs.v
theories/FloatHeadProps.v
theories/HandoffSpec.v
theories/HandoffProofs.v
theories/HandoffProps.v
theories/ShallowModel.v
theories/ShallowSpec.v
theories/ShallowProofs.v
theories/ShallowRefute.v
theories/ShallowProps.v
theories/XFoilCaseSpec.v
theories/XFoilCaseProofs.v
theories/XFoilCaseProps.v
theories/DecelerationSpec.v
theories/DecelerationProofs.v
theories/DecelerationProps.v
theories/EndStateProofs.v
theories/EndStateProps.v
theories/XFoilFlowSpec.v
theories/XFoilFlowProofs.v
theories/XFoilFlowProps.v
theories/CaseNewProps.v
theories/CaseQueryModel.v
theories/CaseQuerySpec.v
theories/CaseQueryProofs.v
theories/CaseQueryProps.v
theories/CaseFlowProofs.v
theories/CaseFlowProps.v
theories/StartPointsSpec.v
theories/StartPointsProofs.v
theories/StartPointsProps.v
theories/StartValuesSpec.v
theories/StartValuesProofs.v
theories/StartValuesProps.v
theories/GradientErrorSpec.v
theories/GradientErrorProofs.v
theories/GradientErrorProps.v
theories/BalanceSpec.v
theories/BalanceProofs.v
theories/BalanceProps.v
theories/FloatFrictionModel.v
theories/FloatFrictionSpec.v
theories/FloatFrictionProofs.v
theories/FloatFrictionProps.v
theories/XFoilStartProofs.v
theories/XFoilStartProps.v
theories/FloatPowFitsModel.v
theories/FloatPowFitsSpec.v
theories/FloatPowFitsProofs.v
theories/FloatPowFitsProps.v
theories/FloatReportsModel.v
theories/FloatReportsSpec.v
theories/FloatReportsProofs.v
theories/FloatReportsProps.v
theories/FloatHeadReportsModel.v
theories/FloatHeadReportsSpec.v
theories/FloatHeadReportsProofs.v
theories/FloatHeadReportsProps.v
theories/FloatSimilarityModel.v
theories/FloatSimilaritySpec.v
theories/FloatSimilarityProofs.v
theories/FloatSimilarityProps.v
theories/FloatWedgeModel.v
theories/FloatWedgeProofs.v
theories/FloatWedgeProps.v
