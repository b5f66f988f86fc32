-Q theories Verif
theories/GridModel.v
theories/GridSpec.v
theories/GridProofs.v
theories/Geo.v
theories/GridGeoModel.v
theories/GridGeoSpec.v
theories/GridGeoProofs.v
theories/GridProps.v
theories/GridStoreModel.v
theories/GridStoreSpec.v
theories/GridStoreProofs.v
theories/GridStoreProps.v
theories/FloodModel.v
theories/FloodSpec.v
theories/FloodSets.v
theories/FloodFillProofs.v
theories/FloodMergeProofs.v
theories/FloodProofs.v
theories/FloodProps.v
theories/BoxModel.v
theories/BoxSpec.v
theories/BoxProofs.v
theories/BoxProps.v
theories/GgqModel.v
theories/GgqProofs.v
theories/GgqProps.v
theories/GaussTable.v
theories/GgqTableOptimal.v
theories/GgqTableReduced1.v
theories/GgqTableReduced2.v
theories/Ggq1dModel.v
theories/Ggq1dSpec.v
theories/Ggq1dProofs.v
theories/Ggq1dClasses.v
theories/Ggq1dAll.v
theories/Ggq1dProps.v
theories/GaussModel.v
theories/MappingModel.v
theories/GaussProofs.v
theories/MappingProps.v
theories/GaussProps.v
theories/PolyModel.v
theories/PolyProps.v
theories/OctreeModel.v
theories/OctreeSpec.v
theories/OctreeProofs.v
theories/OctreeProps.v
theories/TrimmedQuadModel.v
theories/TrimmedQuadProofs.v
theories/TrimmedQuadAssemble.v
theories/TrimmedQuadLemmas.v
theories/TrimmedQuadWitness.v
theories/TrimmedProps.v
theories/KeysModel.v
theories/KeysProofs.v
theories/SettingsKeys.v
theories/DictModel.v
theories/DictProofs.v
theories/SettingsModel.v
theories/SettingsProofs.v
theories/KeysProps.v
theories/DictProps.v
theories/SettingsProps.v
theories/JsonModel.v
theories/JsonSpec.v
theories/JsonSpecProofs.v
theories/JsonProofs.v
theories/JsonProps.v
theories/BufferModel.v
theories/BufferProofs.v
theories/BufferProps.v
theories/PointOrderModel.v
theories/PointOrderProofs.v
theories/PointOrderProps.v
theories/MeshModel.v
theories/MeshProofs.v
theories/MeshGeoModel.v
theories/MeshGeoProofs.v
theories/MeshBoxProofs.v
theories/MeshSumProofs.v
theories/MeshProps.v
theories/StlModel.v
theories/StlProofs.v
theories/StlAsciiProofs.v
theories/StlProps.v
theories/TriIpModel.v
theories/TriIpProps.v
theories/ClipModel.v
theories/ClipTheory.v
theories/ClipPlane.v
theories/ClipArea.v
theories/ClipProofs.v
theories/ClipInv.v
theories/ClipMeshProofs.v
theories/ClipCover.v
theories/ClipResult.v
theories/ClipProps.v
theories/SearchModel.v
theories/Perm.v
theories/SearchProofs.v
theories/SearchInsert.v
theories/SearchQuery.v
theories/SearchProps.v
theories/Helly.v
theories/GeoQueryModel.v
theories/SatProofs.v
theories/SatMain.v
theories/GeoQueryProofs.v
theories/RayProofs.v
theories/CastProofs.v
theories/GeoQueryProps.v
theories/DomainModel.v
theories/DomainProps.v
theories/VtkModel.v
theories/VtkSpec.v
theories/VtkProofs.v
theories/VtkProps.v
theories/ClipAdd.v
theories/ClipGrid.v
theories/ClipCells.v
theories/ConditionModel.v
theories/ConditionProofs.v
theories/ConditionProps.v
theories/ConditionStlProps.v
theories/ContourModel.v
theories/ContourProofs.v
theories/ContourFace.v
theories/ContourWitness.v
theories/ContourGeo.v
theories/ContourArea.v
theories/ContourInput.v
theories/ContourProps.v
theories/NnlsModel.v
theories/NnlsSums.v
theories/NnlsProofs.v
theories/NnlsLoop.v
theories/NnlsProps.v
theories/SplineSpec.v
theories/SplineProducts.v
theories/GgqExactCheck.v
theories/GgqExactRules.v
theories/GgqExactClasses.v
theories/GgqExactRun.v
theories/GgqExactProps.v
theories/JsonIoModel.v
theories/JsonIoProofs.v
theories/JsonIoSafe.v
theories/JsonIoProps.v
theories/TrimSearchModel.v
theories/TrimSearchSpec.v
theories/TrimSearchProofs.v
theories/TrimSearchGeo.v
theories/TrimSearchInside.v
theories/TrimSearchProps.v
theories/DivSpec.v
theories/DivProofs.v
theories/DivMoment.v
theories/DivBox.v
theories/DivProps.v
theories/VolumeModel.v
theories/VolumeSpec.v
theories/VolumeProofs.v
theories/VolumeWitness.v
theories/VolumeExample.v
theories/VolumeProps.v
theories/ParitySign.v
theories/ParitySpec.v
theories/ParityGeo.v
theories/ParityDir.v
theories/ParityMain.v
theories/ParityPath.v
theories/ParityCast.v
theories/ParityProps.v
theories/GgqLast.v
theories/GgqGridSpec.v
theories/GgqGrid1d.v
theories/GgqGridProofs.v
theories/GgqGridProps.v
theories/FloodGeoModel.v
theories/FloodGeoSpec.v
theories/FloodSight.v
theories/FloodGeoCells.v
theories/FloodSections.v
theories/FloodGeoProofs.v
theories/FloodCorner.v
theories/FloodGeoProps.v
theories/BSplineModel.v
theories/BSplineSpec.v
theories/BSplineProofs.v
theories/BSplineInsert.v
theories/BSplineVolume.v
theories/BSplineProps.v
theories/SessionModel.v
theories/SessionProofs.v
theories/SessionCalls.v
theories/SessionHistory.v
theories/SessionSequence.v
theories/SessionProps.v
theories/PyQuesoModel.v
theories/PyQuesoFiles.v
theories/PyQuesoProofs.v
theories/PyQuesoProps.v
theories/PyMeshModel.v
theories/PyMeshProofs.v
theories/PyMeshProps.v
theories/FloodThreadsModel.v
theories/FloodThreadsProofs.v
theories/FloodThreadsProps.v
theories/GridRoundModel.v
theories/GridRoundProofs.v
theories/GridRoundProps.v
theories/ClipRoundModel.v
theories/ClipRoundProofs.v
theories/ClipRoundProps.v
theories/MapRoundModel.v
theories/MapRoundProofs.v
theories/MapRoundProps.v
theories/AreaRoundModel.v
theories/AreaRoundProofs.v
theories/AreaRoundProps.v
