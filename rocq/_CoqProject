-Q theories Verif
theories/ListUtil.v
theories/CacheModel.v
theories/ArrKeyModel.v
theories/CacheSpec.v
theories/CacheProofs.v
theories/CacheHistory.v
theories/CacheMore.v
theories/CacheProps.v
theories/ConfigModel.v
theories/ConfigSpec.v
theories/ConfigProofs.v
theories/ConfigUnits.v
theories/ConfigProps.v
theories/ParModel.v
theories/ParProofs.v
theories/CatModel.v
theories/CatSpec.v
theories/CatProofs.v
theories/CatPar.v
theories/CatMpi.v
theories/CatProps.v
theories/XR.v
theories/GeoModel.v
theories/GeoSpec.v
theories/GeoProofs.v
theories/GeoProps.v
theories/ShapeModel.v
theories/ShapeSpec.v
theories/ShapeProofs.v
theories/ShapeKatz.v
theories/Spectral.v
theories/ShapePar.v
theories/ShapeFacts.v
theories/ShapeExamples.v
theories/ShapeProps.v
theories/ShapeShells.v
theories/EpsModel.v
theories/EpsProps.v
theories/StoreModel.v
theories/StoreProps.v
theories/DensModel.v
theories/DensSpec.v
theories/DensProofs.v
theories/DensEll.v
theories/DensProps.v
theories/DensMove.v
theories/ShapeMoveModel.v
theories/ShapeMoveProps.v
theories/DensMencl.v
theories/FitModel.v
theories/ProfProps.v
theories/FitProps.v
theories/FitConc.v
theories/FitObj.v
theories/StatModel.v
theories/SplitProps.v
theories/StatProps.v
theories/StatProps2.v
theories/StatProps3.v
theories/MockModel.v
theories/MockPts.v
theories/MockUniProps.v
theories/VizModel.v
theories/VizProps.v
theories/CutModel.v
theories/CutProps.v
theories/CenterProps.v
theories/SimProofs.v
theories/SimProps.v
theories/DensSimProps.v
theories/FigModel.v
theories/FigProps.v
theories/AxisModel.v
theories/AxisProps.v
theories/HistModel.v
theories/HistProps.v
theories/HistOrder.v
theories/RankModel.v
theories/RankProps.v
theories/MockProps.v
theories/GadgetModel.v
theories/GadgetSpec.v
theories/GadgetProps.v
theories/GadgetBlocks.v
theories/GadgetReadModel.v
theories/GadgetReadProps.v
theories/GadgetReadFiles.v
theories/HeaderModel.v
theories/HeaderSpec.v
theories/HeaderProps.v
theories/LabelModel.v
theories/LabelProps.v
theories/CosmoModel.v
theories/CosmoProps.v
theories/CosmoProps2.v
theories/ApiModel.v
theories/ApiProps.v
theories/DocModel.v
theories/DocProps.v
theories/NameModel.v
theories/NameProps.v
theories/GadObjModel.v
theories/GadObjProps.v
theories/CacheLimitModel.v
theories/CacheLimitProps.v
theories/LocalTProps.v
theories/ShapeFigModel.v
theories/ShapeFigProps.v
theories/KsModel.v
theories/KsProps.v
theories/RecoverProps.v
theories/FloatModel.v
theories/FloatProps.v
theories/Cat32Model.v
theories/Cat32Props.v
theories/MockDens.v
theories/MockBin.v
theories/RedProps.v
theories/FitErr.v
theories/FigErr.v
theories/EndModel.v
theories/EndProps.v
theories/GadCallModel.v
theories/GadCallProps.v
theories/VelCallModel.v
theories/VelCallProps.v
theories/EndKernel.v
theories/EndEllModel.v
theories/EndEll.v
theories/PlotCallModel.v
theories/PlotCallProps.v
theories/EpsCallModel.v
theories/EpsCallProps.v
theories/VizCallModel.v
theories/VizCallProps.v
theories/AloneProps.v
