-Q theories Verif
theories/Base.v
theories/BoxModel.v
theories/BoxProofs.v
theories/BoxProps.v
theories/TextModel.v
theories/TextProofs.v
theories/BoxTextModel.v
theories/BoxTextProps.v
theories/FineCoarseModel.v
theories/FineCoarseProofs.v
theories/FineCoarseProofs2.v
theories/TartanProofs.v
theories/ProportionProofs.v
theories/FineCoarseProps.v
theories/StrModel.v
theories/StrProofs.v
theories/UuidModel.v
theories/UuidProofs.v
theories/UuidProps.v
theories/ConsolModel.v
theories/ConsolProofs.v
theories/ConsolProps.v
theories/PyDict.v
theories/PySort.v
theories/ForestModel.v
theories/ForestProofs.v
theories/ForestProps.v
theories/CatalogueModel.v
theories/CatalogueProofs.v
theories/CatalogueProps.v
theories/FactorsModel.v
theories/FactorsProps.v
theories/LookupModel.v
theories/LookupProps.v
theories/XmlModel.v
theories/XmlSpec.v
theories/XmlProofs.v
theories/XmlHead.v
theories/XmlRound.v
theories/XmlProps.v
theories/TimeModel.v
theories/TimeProofs.v
theories/TimeProps.v
theories/TimeProps2.v
theories/NArray.v
theories/PackModel.v
theories/PackProps.v
theories/H5FileModel.v
theories/H5Model.v
theories/H5Props.v
theories/H5FileProofs.v
theories/H5FileProps.v
theories/MpModel.v
theories/MpProofs.v
theories/MpProps.v
theories/QBase.v
theories/PipModel.v
theories/PipProofs.v
theories/PipProofs2.v
theories/PipProofs3.v
theories/PipProofs4.v
theories/PipProps.v
theories/VolModel.v
theories/VolProps.v
theories/VolProps2.v
theories/WamData.v
theories/WamModel.v
theories/WamProofs.v
theories/WamProps.v
theories/CrsModel.v
theories/CrsProofs.v
theories/CrsProps.v
theories/PillarModel.v
theories/PillarProofs.v
theories/PillarProps.v
theories/GridFnModel.v
theories/GridFnProofs.v
theories/GridFnProps.v
theories/AsciiModel.v
theories/AsciiProofs.v
theories/AsciiProofs2.v
theories/AsciiProps.v
theories/TriModel.v
theories/TriProofs.v
theories/TriProofs2.v
theories/TriProofs3.v
theories/TriProofs4.v
theories/TriProps.v
theories/BisectModel.v
theories/BisectProofs.v
theories/BisectProofs2.v
theories/BisectProofs3.v
theories/BisectProofs4.v
theories/BisectProofs5.v
theories/BisectProps.v
theories/ShadowProps.v
theories/GcsModel.v
theories/GcsProofs.v
theories/GcsProofs2.v
theories/GcsProofs3.v
theories/GcsProps.v
theories/GcsFaceProofs.v
theories/GcsFaceProps.v
theories/GcsSubProps.v
theories/GcsPinchProps.v
theories/GcsNexusModel.v
theories/GcsNexusProofs.v
theories/GcsNexusProps.v
theories/PropSelModel.v
theories/PropSelProofs.v
theories/PropSelProps.v
theories/PropFlagProps.v
theories/PropStackProps.v
theories/NormModel.v
theories/NormProps.v
theories/PropXmlModel.v
theories/PropXmlProofs.v
theories/PropXmlProps.v
theories/CoarsenModel.v
theories/CoarsenProofs.v
theories/CoarsenProps.v
theories/CoarsenProps2.v
theories/CoarsenProps3.v
theories/DecoarsenModel.v
theories/DecoarsenProofs.v
theories/DecoarsenProps.v
theories/WellModel.v
theories/WellProofs.v
theories/WellProps.v
theories/WellProps2.v
theories/CoarsenProps4.v
theories/IntersectModel.v
theories/IntersectProofs.v
theories/IntersectProps.v
theories/PointsModel.v
theories/PointsProofs.v
theories/PointsProps.v
theories/ExtractModel.v
theories/ExtractProofs.v
theories/ExtractProps.v
theories/ZoneModel.v
theories/ZoneProps.v
theories/RefineModel.v
theories/RefineProofs.v
theories/RefineProps.v
theories/FromCpModel.v
theories/FromCpProofs.v
theories/FromCpProps.v
theories/RefineProps2.v
theories/TriMeshModel.v
theories/TriMeshProps.v
theories/TriMeshProps2.v
theories/PatchModel.v
theories/PatchProps.v
theories/PatchProps2.v
theories/PolylineModel.v
theories/PolylineProps.v
theories/PolylineProps2.v
theories/ThrowModel.v
theories/ThrowProps.v
theories/DrapeModel.v
theories/DrapeProps.v
theories/DrapeProps2.v
theories/SmoothModel.v
theories/SmoothProps.v
theories/ZoneLayerModel.v
theories/ZoneLayerProps.v
theories/SingleCellModel.v
theories/SingleCellProps.v
