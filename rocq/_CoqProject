-Q theories Verif
theories/Base.v
theories/StatusModel.v
theories/StatusSpec.v
theories/StatusProofs.v
theories/StatusPrintModel.v
theories/StatusPrintProofs.v
theories/StatusProps.v
theories/StrategyModel.v
theories/StrategySpec.v
theories/StrategyProofs.v
theories/StrategyProps.v
theories/EntitySetModel.v
theories/EntitySetSpec.v
theories/EntitySetProofs.v
theories/EntitySetProps.v
theories/ConstraintsModel.v
theories/ConstraintsSpec.v
theories/ConstraintsProofs.v
theories/ConstraintsProps.v
theories/MatrixModel.v
theories/MatrixSpec.v
theories/MatrixProofs.v
theories/LoopProofs.v
theories/MatrixProps.v
theories/PyConstraintsModel.v
theories/PyConstraintsSpec.v
theories/PyConstraintsProofs.v
theories/PyConstraintsProps.v
theories/BuilderModel.v
theories/BuilderSpec.v
theories/BuilderProofs.v
theories/BuilderAttrProofs.v
theories/BuilderExamples.v
theories/BuilderProps.v
theories/WriterModel.v
theories/WriterSpec.v
theories/WriterProofs.v
theories/WriterNetProofs.v
theories/WriterBuildProofs.v
theories/WriterExamples.v
theories/WriterProps.v
theories/NumModel.v
theories/VecModel.v
theories/GeoSpec.v
theories/GeoLemmas.v
theories/MathProofs.v
theories/MathExamples.v
theories/MathProps.v
theories/LinModel.v
theories/LinSpec.v
theories/LinProofs.v
theories/BoxProofs.v
theories/LinProps.v
theories/RoundModel.v
theories/RoundSpec.v
theories/EllProofs.v
theories/ArcProofs.v
theories/CylProofs.v
theories/AreaProofs.v
theories/RoundProps.v
theories/PolyModel.v
theories/PolySpec.v
theories/PolyProofs.v
theories/PolyBridge.v
theories/QuadProofs.v
theories/PolyExamples.v
theories/PolyProps.v
theories/DistModel.v
theories/DistSpec.v
theories/DistProofs.v
theories/LenProofs.v
theories/DistProps.v
theories/IntModel.v
theories/IntSpec.v
theories/SegIntProofs.v
theories/SegIntProofs2.v
theories/IntProofs.v
theories/FaceIntProofs.v
theories/LineIntProofs.v
theories/IntExamples.v
theories/IntCases.v
theories/IntProps.v
theories/AngModel.v
theories/AngSpec.v
theories/AngProofs.v
theories/AngProofs2.v
theories/AngExamples.v
theories/AngProps.v
theories/SampModel.v
theories/SampSpec.v
theories/SampProofs.v
theories/SampPoly.v
theories/SampConvex.v
theories/SampPy.v
theories/SampExamples.v
theories/SampMore.v
theories/SampProps.v
theories/TightProofs.v
theories/TightProps.v
theories/PyBindModel.v
theories/PyBindSpec.v
theories/PyBindProofs.v
theories/PyBindExamples.v
theories/PyBindProps.v
theories/DynModel.v
theories/DynSpec.v
theories/DynProofs.v
theories/DynProps.v
theories/CylIntModel.v
theories/CylIntSpec.v
theories/CylIntProofs.v
theories/CylIntProofs2.v
theories/CylIntExamples.v
theories/CylIntProps.v
theories/FaceFaceModel.v
theories/FaceFaceSpec.v
theories/FaceFaceProofs.v
theories/FaceFaceExamples.v
theories/FaceFaceProps.v
theories/ShapeModel.v
theories/ShapeSpec.v
theories/ShapeProofs.v
theories/ShapeExamples.v
theories/ShapeProps.v
theories/AppModel.v
theories/AppSpec.v
theories/AppNetSpec.v
theories/AppProofs.v
theories/AppEvalProofs.v
theories/AppTunnelProofs.v
theories/AppTunnelEvalProofs.v
theories/AppNetProofs.v
theories/AppExamples.v
theories/AppProps.v
theories/PyTabSpec.v
theories/PyTabProofs.v
theories/PyTabProps.v
theories/SubModel.v
theories/SubSpec.v
theories/SubProofs.v
theories/SubProofs2.v
theories/SubExamples.v
theories/SubProps.v
theories/PyNetModel.v
theories/PyNetSpec.v
theories/PyNetProofs.v
theories/PyNetExamples.v
theories/PyNetProps.v
theories/EvalModel.v
theories/EvalSpec.v
theories/EvalProofs.v
theories/EvalExamples.v
theories/EvalProps.v
theories/Ex1Model.v
theories/Ex1Spec.v
theories/Ex1Quad.v
theories/Ex1Proofs.v
theories/Ex1Examples.v
theories/Ex1Runs.v
theories/Ex1Props.v
theories/DblSpec.v
theories/DblLemmas.v
theories/DblProofs.v
theories/DblExamples.v
theories/DblLen.v
theories/DblEq.v
theories/DblRange.v
theories/DblProps.v
theories/LowModel.v
theories/LowSpec.v
theories/LowProofs.v
theories/LowDbl.v
theories/LowGeo.v
theories/LowExamples.v
theories/LowProps.v
theories/ShEvalModel.v
theories/ShEvalSpec.v
theories/ShEvalProofs.v
theories/ShEvalExamples.v
theories/ShEvalProps.v
theories/BndModel.v
theories/BndSpec.v
theories/BndProofs.v
theories/BndExamples.v
theories/BndProps.v
theories/DomModel.v
theories/DomSpec.v
theories/DomProofs.v
theories/DomExamples.v
theories/DomProps.v
theories/LinDblBase.v
theories/LinDblFoot.v
theories/LinDblSpec.v
theories/LinDblProofs.v
theories/LinDblSeg.v
theories/LinDblDist.v
theories/LinDblExamples.v
theories/LinDblProps.v
theories/TriDblSpec.v
theories/TriDblBase.v
theories/TriDblProofs.v
theories/TriDblHull.v
theories/TriDblExamples.v
theories/TriDblProps.v
theories/RndDblSpec.v
theories/RndDblProofs.v
theories/RndDblTol.v
theories/RndDblExamples.v
theories/RndDblProps.v
theories/TrigDblSpec.v
theories/TrigDblExamples.v
theories/AngDblSpec.v
theories/AngDblProofs.v
theories/AngDblExamples.v
theories/AngDblProps.v
theories/PtDblSpec.v
theories/PtDblProofs.v
theories/FrDblProofs.v
theories/PtDblExamples.v
theories/PtDblProps.v
theories/BdDblSpec.v
theories/BdDblProofs.v
theories/BdDblExamples.v
theories/BdDblProps.v
theories/DkDblSpec.v
theories/DkDblProofs.v
theories/DkDblTrip.v
theories/DkDblExamples.v
theories/DkDblProps.v
theories/GeoTextModel.v
theories/GeoTextSpec.v
theories/GeoTextMap.v
theories/GeoTextProofs.v
theories/GeoTextNum.v
theories/GeoTextLink.v
theories/GeoTextExamples.v
theories/GeoTextProps.v
theories/AgDblSpec.v
theories/AgDblReal.v
theories/AgDblProofs.v
theories/AgDblPoint.v
theories/AgDblArc.v
theories/AgDblExamples.v
theories/AgDblProps.v
theories/IxDblSpec.v
theories/IxDblProofs.v
theories/IxDblPlane.v
theories/IxDblExamples.v
theories/IxDblProps.v
theories/SdDblSpec.v
theories/SdDblProofs.v
theories/SdDblDisk.v
theories/SdDblFrame.v
theories/SdDblExamples.v
theories/SdDblProps.v
theories/SpDblSpec.v
theories/SpDblProofs.v
theories/SpDblDeltas.v
theories/SpDblExamples.v
theories/SpDblProps.v
theories/ChkModel.v
theories/ChkSpec.v
theories/ChkProofs.v
theories/ChkDbl.v
theories/ChkFail.v
theories/ChkExamples.v
theories/ChkDblExamples.v
theories/ChkProps.v
theories/RngModel.v
theories/RngSpec.v
theories/RngOrder.v
theories/RngProofs.v
theories/RngDbl.v
theories/RngPlanes.v
theories/RngCyl.v
theories/RngHolSpec.v
theories/RngHol.v
theories/RngExamples.v
theories/RngHolExamples.v
theories/RngProps.v
theories/QdDblSpec.v
theories/QdDblProofs.v
theories/QdDblSample.v
theories/QdDblExamples.v
theories/QdDblProps.v
theories/DrawModel.v
theories/DrawSpec.v
theories/DrawProofs.v
theories/DrawDbl.v
theories/DrawPair.v
theories/DrawSign.v
theories/DrawUse.v
theories/DrawExamples.v
theories/DrawMakeModel.v
theories/DrawMake.v
theories/DrawMakeExamples.v
theories/DrawRadModel.v
theories/DrawRad.v
theories/DrawProps.v
theories/DrawMakeProps.v
