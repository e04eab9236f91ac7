-Q theories Verif
theories/Base.v
theories/FloatModel.v
theories/Blob.v
theories/Oracle.v
theories/Fmt.v
theories/Arithm.v
theories/StampDict.v
theories/DictWords.v
theories/StampText.v
theories/Galley.v
theories/Stamps.v
theories/Json.v
theories/Hexdump.v
theories/OwnedPtr.v
theories/BaseFacts.v
theories/BlobSpec.v
theories/BlobFacts.v
theories/BlobHistory.v
theories/BlobHistoryFacts.v
theories/Prop_Blob.v
theories/StampsEq.v
theories/Sim.v
theories/SimGraph.v
theories/RunSpec.v
theories/RunFacts.v
theories/LocalSpec.v
theories/LocalFacts.v
theories/Prop_Locality.v
theories/ArithSpec.v
theories/ArithFacts.v
theories/Prop_Arithm.v
theories/FloatTextSpec.v
theories/FloatTextFacts.v
theories/FloatTextUnique.v
theories/Prop_FloatText.v
theories/FloatFacts.v
theories/OracleFacts.v
theories/OracleLarge.v
theories/Prop_Oracle.v
theories/PickFacts.v
theories/DictSpec.v
theories/DictFacts.v
theories/Prop_Dict.v
theories/TextSpec.v
theories/TextFacts.v
theories/Prop_Text.v
theories/QuerySpec.v
theories/QueryFacts.v
theories/RecursionFacts.v
theories/Prop_Recursion.v
theories/LeafSpec.v
theories/ShrinkFacts.v
theories/DepthFacts.v
theories/TermFacts.v
theories/TermSpec.v
theories/Prop_Termination.v
theories/NestSpec.v
theories/NestFacts.v
theories/Prop_Enum.v
theories/Prop_Math.v
theories/Prop_Class.v
theories/LoadSpec.v
theories/LoadFacts.v
theories/Prop_Load.v
theories/LoadAllSpec.v
theories/LoadAllFacts.v
theories/Prop_LoadAll.v
theories/OwnedSpec.v
theories/OwnedFacts.v
theories/Prop_Owned.v
theories/HexdumpSpec.v
theories/HexdumpFacts.v
theories/Prop_Hexdump.v
theories/VectorSpec.v
theories/VectorFacts.v
theories/VectorFloat.v
theories/VectorUnbounded.v
theories/VectorLimits.v
theories/Prop_Vector.v
theories/SetSpec.v
theories/SetFloat.v
theories/SetFacts.v
theories/SetRun.v
theories/SetLimits.v
theories/Prop_Set.v
theories/LotSpec.v
theories/LotFacts.v
theories/Prop_Lottery.v
theories/PoolFacts.v
theories/Prop_Pool.v
theories/ContractSpec.v
theories/ContractFacts.v
theories/Prop_Contract.v
theories/JsonSpec.v
theories/JsonGrammar.v
theories/JsonFacts.v
theories/Prop_Json.v
theories/VectorLow.v
theories/DecodeSpec.v
theories/DecodeFacts.v
theories/Prop_Decode.v
theories/ReachFacts.v
theories/ShapeSpec.v
theories/ShapeFacts.v
theories/Prop_Shape.v
theories/MaxSpec.v
theories/MaxFacts.v
theories/Prop_Max.v
theories/JsonLife.v
theories/LifeSpec.v
theories/LifeFacts.v
theories/Prop_Life.v
theories/FairSpec.v
theories/FairFacts.v
theories/FairRun.v
theories/FairBig.v
theories/Prop_Fair.v
theories/Formula.v
theories/FormulaSpec.v
theories/FormulaFacts.v
theories/Prop_Formula.v
theories/Points.v
theories/PointsSpec.v
theories/PointsFacts.v
theories/Prop_Points.v
theories/Pulp.v
theories/PulpSpec.v
theories/PulpFacts.v
theories/Prop_Pulp.v
theories/TestStamps.v
theories/Conformance.v
theories/Experiment.v
theories/ExperimentSpec.v
theories/ExperimentFacts.v
theories/ExperimentRun.v
theories/Prop_Experiment.v
theories/FrontSpec.v
theories/FrontFacts.v
theories/Prop_Front.v
theories/SizesSpec.v
theories/SizesFacts.v
theories/Prop_Sizes.v
theories/FailSpec.v
theories/FailFacts.v
theories/Prop_Fail.v
theories/ExpiredSpec.v
theories/ExpiredFacts.v
theories/Prop_Expired.v
theories/ReachVector.v
theories/Prop_Reach.v
theories/ReachSetSpec.v
theories/ReachSet.v
theories/Prop_ReachSet.v
theories/NeedSpec.v
theories/NeedFacts.v
theories/Prop_Need.v
theories/BlindSpec.v
theories/BlindFacts.v
theories/Prop_Blind.v
theories/WeaveSpec.v
theories/WeaveFacts.v
theories/Prop_Weave.v
theories/Readme.v
theories/UserSpec.v
theories/UserFacts.v
theories/Prop_User.v
theories/Weighted.v
theories/WeightedSpec.v
theories/WeightedFacts.v
theories/Prop_Weighted.v
theories/VectorAllSpec.v
theories/VectorAll.v
theories/Prop_VectorAll.v
theories/Owner.v
theories/OwnerSpec.v
theories/OwnerAgree.v
theories/OwnerFacts.v
theories/OwnerView.v
theories/Prop_Owner.v
theories/Cost.v
theories/CostSpec.v
theories/CostFacts.v
theories/CostExact.v
theories/Prop_Cost.v
theories/Views.v
theories/ViewsSpec.v
theories/ViewsFacts.v
theories/Prop_Views.v
theories/Tap.v
theories/TapSpec.v
theories/TapFacts.v
theories/Prop_Tap.v
theories/TapFloat.v
theories/NearFacts.v
theories/Prop_Near.v
theories/HugeSpec.v
theories/HugeFacts.v
theories/HugeVector.v
theories/HugeSet.v
theories/Prop_Huge.v
theories/TotalsFacts.v
theories/Prop_Totals.v
