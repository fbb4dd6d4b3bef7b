-Q theories Verif
theories/Base.v
theories/BaseLemmas.v
theories/RangesModel.v
theories/RangesSpec.v
theories/RangesProofs.v
theories/ChunkProofs.v
theories/ChunkRangeProofs.v
theories/OrderedSlicesProofs.v
theories/SortModel.v
theories/SortProofs.v
theories/RangesTheorems.v
theories/QTac.v
theories/MaskModel.v
theories/MaskSpec.v
theories/MaskListProofs.v
theories/MaskGeomProofs.v
theories/MaskProofs.v
theories/MaskHistProofs.v
theories/MaskCountProofs.v
theories/MaskTheorems.v
theories/ReaderModel.v
theories/ReaderSpec.v
theories/ReaderProofs.v
theories/ReaderTheorems.v
theories/SubsetModel.v
theories/SubsetSpec.v
theories/SubsetProofs.v
theories/SubsetTheorems.v
theories/CosmoModel.v
theories/CosmoSpec.v
theories/CosmoProofs.v
theories/CosmoExprProofs.v
theories/CosmoHeapProofs.v
theories/CosmoTheorems.v
theories/WriterModel.v
theories/WriterSpec.v
theories/WriterProofs.v
theories/WriterFileProofs.v
theories/WriterHistProofs.v
theories/WriterUnitProofs.v
theories/WriterTheorems.v
theories/NamesModel.v
theories/NamesSpec.v
theories/NamesProofs.v
theories/NamesTheorems.v
theories/HandleModel.v
theories/HandleProofs.v
theories/HandleLentProofs.v
theories/HandleTheorems.v
theories/VisModel.v
theories/VisSpec.v
theories/VisSumProofs.v
theories/VisProofs.v
theories/VisValueProofs.v
theories/VisTheorems.v
theories/RotModel.v
theories/RotProofs.v
theories/RotTheorems.v
theories/HsmlModel.v
theories/HsmlProofs.v
theories/HsmlTheorems.v
theories/CmapModel.v
theories/CmapTheorems.v
theories/PowerModel.v
theories/PowerTheorems.v
theories/FrontModel.v
theories/FrontSpec.v
theories/FrontProofs.v
theories/FrontTheorems.v
theories/FuncModel.v
theories/FuncSpec.v
theories/FuncProofs.v
theories/FuncMoreProofs.v
theories/FuncHistProofs.v
theories/FuncTheorems.v
theories/SpectrumModel.v
theories/SpectrumSpec.v
theories/SpectrumProofs.v
theories/SpectrumBinProofs.v
theories/SpectrumFoldProofs.v
theories/SpectrumTheorems.v
theories/TreeModel.v
theories/TreeSpec.v
theories/TreeProofs.v
theories/TreeWriteProofs.v
theories/TreeSuccessProofs.v
theories/TreeTheorems.v
theories/StatsModel.v
theories/StatsSpec.v
theories/StatsProofs.v
theories/StatsTheorems.v
theories/MetaModel.v
theories/MetaSpec.v
theories/MetaProofs.v
theories/MetaHeaderProofs.v
theories/MetaMapProofs.v
theories/MetaGroupProofs.v
theories/MetaTheorems.v
theories/ConvModel.v
theories/ConvSpec.v
theories/ConvTheorems.v
theories/KernelSpec.v
theories/KernelProofs.v
theories/KernelTheorems.v
theories/CtorModel.v
theories/CtorSpec.v
theories/CtorTheorems.v
theories/InfoModel.v
theories/InfoSpec.v
theories/InfoProofs.v
theories/InfoTextProofs.v
theories/InfoTheorems.v
theories/MaskNamesModel.v
theories/MaskNamesSpec.v
theories/MaskNamesProofs.v
theories/MaskNamesStepProofs.v
theories/MaskNamesCallProofs.v
theories/MaskNamesBuildProofs.v
theories/MaskNamesTheorems.v
theories/VisSubSpec.v
theories/VisSubProofs.v
theories/VisSubTheorems.v
theories/CosmoExactSpec.v
theories/CosmoExactTheorems.v
theories/VolImageModel.v
theories/VolImageSpec.v
theories/VolImageProofs.v
theories/VolImageTheorems.v
theories/UfuncModel.v
theories/UfuncSpec.v
theories/UfuncProofs.v
theories/UfuncSoundProofs.v
theories/UfuncScaleProofs.v
theories/UfuncTheorems.v
theories/InfoErrorSpec.v
theories/InfoErrorTheorems.v
theories/CtorErrorSpec.v
theories/CtorErrorTheorems.v
theories/PrepSpec.v
theories/PrepTheorems.v
theories/CosmoNumSpec.v
theories/CosmoNumTheorems.v
theories/ClassModel.v
theories/ClassSpec.v
theories/ClassTheorems.v
theories/FactorModel.v
theories/FactorSpec.v
theories/FactorTheorems.v
theories/AxesModel.v
theories/AxesSpec.v
theories/AxesProofs.v
theories/AxesTheorems.v
theories/PartsModel.v
theories/PartsSpec.v
theories/PartsTheorems.v
theories/MaskAttrModel.v
theories/MaskAttrTheorems.v
theories/RegionModel.v
theories/RegionSpec.v
theories/RegionProofs.v
theories/RegionTheorems.v
theories/MaskHeapModel.v
theories/MaskHeapSpec.v
theories/MaskHeapProofs.v
theories/MaskHeapTheorems.v
theories/SeenSpec.v
theories/SeenProofs.v
theories/SeenTheorems.v
theories/SeenFrontSpec.v
theories/SeenFrontTheorems.v
theories/GetModel.v
theories/GetSpec.v
theories/GetTheorems.v
theories/PipeModel.v
theories/PipeSpec.v
theories/PipeTheorems.v
theories/OrderModel.v
theories/OrderSpec.v
theories/OrderProofs.v
theories/OrderTheorems.v
theories/LabelModel.v
theories/LabelSpec.v
theories/LabelTheorems.v
theories/TripModel.v
theories/TripSpec.v
theories/TripTheorems.v
theories/AssignModel.v
theories/AssignSpec.v
theories/AssignTheorems.v
theories/UnitsModel.v
theories/UnitsSpec.v
theories/UnitsTheorems.v
theories/ReopenModel.v
theories/ReopenSpec.v
theories/ReopenMetaProofs.v
theories/ReopenProofs.v
theories/ReopenFileProofs.v
theories/ReopenTheorems.v
theories/ReopenSeenTheorems.v
theories/RoundModel.v
theories/RoundSpec.v
theories/RoundTheorems.v
theories/RoundExactTheorems.v
theories/RoundFloatModel.v
theories/RoundFloatTheorems.v
theories/RoundMaskModel.v
theories/RoundMaskSpec.v
theories/RoundMaskTheorems.v
theories/RoundTripProofs.v
theories/RoundConvModel.v
theories/RoundConvTheorems.v
theories/RoundSumModel.v
theories/RoundSumSpec.v
theories/RoundSumProofs.v
theories/RoundSumTheorems.v
theories/RoundWeightTheorems.v
theories/TripMaskModel.v
theories/TripMaskTheorems.v
theories/MetaErrorTheorems.v
theories/OutsideSpec.v
theories/OutsideTheorems.v
theories/OutsideChunkTheorems.v
theories/OutsideMaskTheorems.v
theories/ShapeModel.v
theories/ShapeSpec.v
theories/ShapeProofs.v
theories/ShapeTheorems.v
theories/ShapeReaderTheorems.v
theories/ShapeErrorTheorems.v
theories/TreeErrorTheorems.v
theories/NarrowModel.v
theories/NarrowSpec.v
theories/NarrowProofs.v
theories/NarrowTheorems.v
theories/WordModel.v
theories/WordProofs.v
theories/WordTheorems.v
theories/UnitOpModel.v
theories/UnitOpSpec.v
theories/UnitOpProofs.v
theories/UnitOpRegionProofs.v
theories/UnitOpTheorems.v
theories/DivModel.v
theories/DivSpec.v
theories/DivProofs.v
theories/DivTheorems.v
theories/FrameModel.v
theories/FrameSpec.v
theories/FrameProofs.v
theories/FrameScaleProofs.v
theories/FrameSameProofs.v
theories/FrameTheorems.v
theories/DegenModel.v
theories/DegenSpec.v
theories/DegenProofs.v
theories/DegenTheorems.v
theories/NearModel.v
theories/NearSpec.v
theories/NearTheorems.v
theories/WrapModel.v
theories/WrapSpec.v
theories/WrapTheorems.v
theories/RowsModel.v
theories/RowsTheorems.v
theories/SceneModel.v
theories/SceneSpec.v
theories/SceneTheorems.v
theories/HrangeModel.v
theories/HrangeSpec.v
theories/HrangeTheorems.v
theories/PackModel.v
theories/PackTheorems.v
theories/PrintModel.v
theories/PrintTheorems.v
theories/HaxesModel.v
theories/HaxesTheorems.v
theories/PadTheorems.v
theories/KroundTheorems.v
theories/EquivTheorems.v
theories/AverageTheorems.v
theories/QuotientTheorems.v
theories/TurnModel.v
theories/TurnSpec.v
theories/TurnTheorems.v
theories/TextModel.v
theories/TextTheorems.v
theories/IntersectModel.v
theories/IntersectTheorems.v
theories/NearPipeSpec.v
theories/NearPipeTheorems.v
theories/AimModel.v
theories/AimSpec.v
theories/AimTheorems.v
theories/AimMatrixTheorems.v
theories/BoundModel.v
theories/BoundTheorems.v
theories/PixTheorems.v
theories/SolidTheorems.v
theories/SharedTheorems.v
theories/SignedModel.v
theories/SignedTheorems.v
