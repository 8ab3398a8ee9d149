-Q theories Verif
theories/Base.v
theories/SeqModel.v
theories/SeqFacts.v
theories/IndexModel.v
theories/IndexFacts.v
theories/IndexSpec.v
theories/IndexGeo.v
theories/Prop_Index.v
theories/OctreeSpec.v
theories/OctreeModel.v
theories/OctreeFacts.v
theories/OctreeHist.v
theories/OctreeSize.v
theories/Prop_Octree.v
theories/MapModel.v
theories/MapFacts.v
theories/BackendModel.v
theories/BackendFacts.v
theories/MapHist.v
theories/SysModel.v
theories/SysSpec.v
theories/SysFacts.v
theories/InsertModel.v
theories/InsertSpec.v
theories/OpHist.v
theories/InsertFacts.v
theories/MapPropFacts.v
theories/MapLifeFacts.v
theories/LoaderModel.v
theories/StaticFacts.v
theories/Samples.v
theories/Prop_Static.v
theories/ExtentModel.v
theories/ExtentFacts.v
theories/OrderFacts.v
theories/RangeSpec.v
theories/RangeFacts.v
theories/Prop_Map.v
theories/Prop_Extent.v
theories/OccFacts.v
theories/Prop_Occ.v
theories/SampleModel.v
theories/SampleSpec.v
theories/InterpFacts.v
theories/SampleFacts.v
theories/Prop_Sample.v
theories/OddsModel.v
theories/OddsSpec.v
theories/OddsFacts.v
theories/Prop_Odds.v
theories/HeapModel.v
theories/HeapSpec.v
theories/HeapFacts.v
theories/Prop_Heap.v
theories/CopyModel.v
theories/CopySpec.v
theories/CopyFacts.v
theories/Prop_Copy.v
theories/ConvModel.v
theories/ConvSpec.v
theories/ConvFacts.v
theories/Prop_Conv.v
theories/SerialModel.v
theories/SerialSpec.v
theories/SerialFacts.v
theories/SerialSamples.v
theories/Prop_Serial.v
theories/ThreadModel.v
theories/ThreadSpec.v
theories/ThreadFacts.v
theories/FileModel.v
theories/FileFacts.v
theories/ReportFacts.v
theories/RejectFacts.v
theories/NodeModel.v
theories/PathModel.v
theories/CrashModel.v
theories/CrashSpec.v
theories/CrashFacts.v
theories/HollowFacts.v
theories/FileSamples.v
theories/Prop_File.v
theories/NarrowFacts.v
theories/StaticTripFacts.v
theories/Prop_StaticFile.v
theories/Prop_Thread.v
theories/Prop_Crash.v
theories/Prop_Node.v
theories/Prop_Path.v
theories/RoundModel.v
theories/RoundFacts.v
theories/Prop_Round.v
theories/JetModel.v
theories/JetSpec.v
theories/JetFacts.v
theories/PriorFacts.v
theories/RigidSpec.v
theories/RigidFacts.v
theories/Prop_Rigid.v
theories/ProblemModel.v
theories/ProblemSpec.v
theories/ProblemFacts.v
theories/Prop_Problem.v
theories/JetSamples.v
theories/Prop_Jet.v
theories/CubicModel.v
theories/CubicFacts.v
theories/CubicSamples.v
theories/Prop_Cubic.v
theories/CloudModel.v
theories/CloudSpec.v
theories/CloudFacts.v
theories/CloudSamples.v
theories/Prop_Cloud.v
theories/VisModel.v
theories/VisSpec.v
theories/VisFacts.v
theories/Prop_Vis.v
theories/IndexSetModel.v
theories/IndexSetSpec.v
theories/IndexSetFacts.v
theories/Prop_IndexSet.v
theories/MatchModel.v
theories/MatchSpec.v
theories/MatchFacts.v
theories/ResidualModel.v
theories/ObjectiveModel.v
theories/ObjectiveSpec.v
theories/ObjectiveFacts.v
theories/ResidualFacts.v
theories/EvalModel.v
theories/EvalFacts.v
theories/Prop_Match.v
theories/Prop_Residual.v
theories/Prop_Objective.v
theories/Prop_Eval.v
theories/GridModel.v
theories/GridFacts.v
theories/Prop_Grid.v
theories/MonoModel.v
theories/MonoSpec.v
theories/MonoFacts.v
theories/Prop_Mono.v
theories/FloatModel.v
theories/FloatFacts.v
theories/FloatScoreFacts.v
theories/FloatBoundFacts.v
theories/FloatIndexFacts.v
theories/Prop_Float.v
theories/BytesModel.v
theories/BytesSpec.v
theories/BytesFacts.v
theories/BytesMapFacts.v
theories/Prop_Bytes.v
theories/MarkerModel.v
theories/MarkerSpec.v
theories/MarkerFacts.v
theories/Prop_Marker.v
theories/LocalSpec.v
theories/LocalFacts.v
theories/Prop_Local.v
theories/LookupModel.v
theories/LookupFacts.v
theories/LookupOccFacts.v
theories/Prop_Lookup.v
theories/TreeHeapSpec.v
theories/TreeHeapModel.v
theories/TreeHeapFacts.v
theories/TreeHeapHist.v
theories/Prop_TreeHeap.v
theories/PtrMapModel.v
theories/PtrMapFacts.v
theories/PtrMapHist.v
theories/PtrMapTop.v
theories/Prop_PtrMap.v
theories/MonoObjModel.v
theories/MonoObjSpec.v
theories/MonoObjFacts.v
theories/Prop_MonoObj.v
theories/NodeStateModel.v
theories/NodeStateSpec.v
theories/NodeStateFacts.v
theories/Prop_NodeState.v
theories/HeightModel.v
theories/HeightSpec.v
theories/HeightFacts.v
theories/Prop_Height.v
theories/MoveModel.v
theories/MoveSpec.v
theories/MoveFacts.v
theories/MoveHist.v
theories/MoveTop.v
theories/Prop_Move.v
theories/LikelihoodModel.v
theories/LikelihoodSpec.v
theories/LikelihoodFacts.v
theories/Prop_Likelihood.v
theories/QuerySpec.v
theories/QueryFacts.v
theories/QueryTop.v
theories/Prop_Query.v
theories/RgbModel.v
theories/RgbFacts.v
theories/Prop_Rgb.v
theories/ShareModel.v
theories/ShareFacts.v
theories/ShareSeq.v
theories/ShareSim.v
theories/ShareTop.v
theories/ShareMap.v
theories/ShareAlone.v
theories/ShareLookup.v
theories/Prop_Share.v
theories/Prop_ShareMap.v
theories/YamlModel.v
theories/YamlSpec.v
theories/YamlFacts.v
theories/Prop_Yaml.v
theories/ObjFloatModel.v
theories/ObjFloatSpec.v
theories/ObjFloatFacts.v
theories/HypotFloatFacts.v
theories/Prop_ObjFloat.v
theories/OccObjFloatModel.v
theories/OccObjFloatSpec.v
theories/OccObjFloatFacts.v
theories/Prop_OccObjFloat.v
theories/ScanFloatModel.v
theories/ScanFloatSpec.v
theories/ScanFloatFacts.v
theories/Prop_ScanFloat.v
theories/LogisticFacts.v
theories/OddsFloatModel.v
theories/OddsFloatSpec.v
theories/OddsFloatFacts.v
theories/OddsFloatTop.v
theories/OddsFloatSamples.v
theories/Prop_OddsFloat.v
theories/SessionModel.v
theories/SessionSpec.v
theories/SessionFacts.v
theories/SessionStaticFacts.v
theories/Prop_Session.v
theories/StepFloatModel.v
theories/StepFloatSpec.v
theories/StepFloatFacts.v
theories/Prop_StepFloat.v
theories/MoveFloatModel.v
theories/MoveFloatSpec.v
theories/MoveFloatFacts.v
theories/Prop_MoveFloat.v
theories/GaussFacts.v
theories/ScanPlaceSpec.v
theories/ScanPlaceFacts.v
theories/Prop_ScanPlace.v
theories/GridFloatModel.v
theories/GridFloatSpec.v
theories/GridFloatFacts.v
theories/GridFloatMap.v
theories/Prop_GridFloat.v
theories/MonoFloatModel.v
theories/MonoFloatSpec.v
theories/MonoFloatFacts.v
theories/MonoFloatMap.v
theories/Prop_MonoFloat.v
theories/MonoPointModel.v
theories/MonoPointSpec.v
theories/MonoPointFacts.v
theories/Prop_MonoPoint.v
theories/MergeFloatModel.v
theories/MergeFloatFacts.v
theories/Prop_MergeFloat.v
theories/DistFloatModel.v
theories/DistFloatSpec.v
theories/DistFloatFacts.v
theories/Prop_DistFloat.v
