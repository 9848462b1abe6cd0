-Q theories Verif
theories/Base.v
theories/Nums.v
theories/Optics.v
theories/Group.v
theories/Objective.v
theories/Spec.v
theories/MatrixProofs.v
theories/ElementProofs.v
theories/GroupProofs.v
theories/TraceProofs.v
theories/RayProofs.v
theories/CardinalProofs.v
theories/StrictProofs.v
theories/FlipProofs.v
theories/TransferProofs.v
theories/CardinalMore.v
theories/ConstructorProofs.v
theories/HistoryProofs.v
theories/Samples.v
theories/Samples2.v
theories/GroupRefutations.v
theories/TraceRefutations.v
theories/CardinalRefutations.v
theories/RaysModel.v
theories/RaysProofs.v
theories/RaysMore.v
theories/HistProofs.v
theories/Drawing.v
theories/MiscProofs.v
theories/RaysRefutations.v
theories/Beam.v
theories/BeamProofs.v
theories/BeamMore.v
theories/BeamRefutations.v
theories/Imaging.v
theories/SearchProofs.v
theories/ImagingProofs.v
theories/FieldProofs.v
theories/FieldMore.v
theories/Samples3.v
theories/ImagingRefutations.v
theories/Store.v
theories/StoreProofs.v
theories/StoreTrace.v
theories/StoreHistory.v
theories/StoreNested.v
theories/StoreMore.v
theories/StoreRefutations.v
theories/Prefs.v
theories/PrefsProofs.v
theories/PrefsRefutations.v
theories/Materials.v
theories/MaterialsProofs.v
theories/NamesProofs.v
theories/MaterialsRefutations.v
theories/Zemax.v
theories/Catalogue.v
theories/Interval.v
theories/LensProofs.v
theories/CatalogueProofs.v
theories/CatalogueLens.v
theories/CatalogueChecks.v
theories/CatalogueBands.v
theories/CatalogueAchromat.v
theories/CatalogueMore.v
theories/CatalogueRefutations.v
theories/ZemaxProofs.v
theories/ZemaxRefutations.v
theories/DispersionProofs.v
theories/Properties1.v
theories/Properties2.v
theories/Properties3.v
theories/Properties4.v
theories/Properties5.v
theories/Properties6.v
theories/Properties7.v
theories/Properties8.v
theories/EqualProofs.v
theories/EqualRefutations.v
theories/LagrangeProofs.v
theories/ZemaxRead.v
theories/Objectives.v
theories/ObjectiveProofs.v
theories/ObjectiveRefutations.v
theories/Properties9.v
theories/Figures.v
theories/FigureProofs.v
theories/FigureLens.v
theories/FigureCatalogue.v
theories/FigurePlace.v
theories/FigureRefutations.v
theories/Properties10.v
theories/Efficiency.v
theories/EfficiencyProofs.v
theories/StopQueries.v
theories/EfficiencyRefutations.v
theories/Properties11.v
theories/Sources.v
theories/SourceProofs.v
theories/SourceRegular.v
theories/Display.v
theories/DisplayProofs.v
theories/DisplayRefutations.v
theories/RayLines.v
theories/RayLineProofs.v
theories/RayLineRefutations.v
theories/Properties12.v
theories/BeamFigure.v
theories/BeamFigureProofs.v
theories/BeamFigureRefutations.v
theories/Properties13.v
theories/Format.v
theories/Scene.v
theories/SceneProofs.v
theories/SceneImages.v
theories/SceneRefutations.v
theories/Properties14.v
theories/Range.v
theories/RangeProofs.v
theories/RangeRefutations.v
theories/FormatProofs.v
theories/Labels.v
theories/LabelProofs.v
theories/ElementFigure.v
theories/ElementFigureProofs.v
theories/LabelRefutations.v
theories/Properties15.v
theories/Modes.v
theories/ModeProofs.v
theories/ModeRefutations.v
theories/Version.v
theories/VersionProofs.v
theories/VersionRefutations.v
theories/Classes.v
theories/ClassProofs.v
theories/Overlap.v
theories/OverlapProofs.v
theories/OverlapRefutations.v
theories/Visibility.v
theories/VisibilityProofs.v
theories/Marks.v
theories/MarksProofs.v
theories/MarksRefutations.v
theories/Properties16.v
theories/Printing.v
theories/PrintingProofs.v
theories/PrintingRefutations.v
theories/LawProofs.v
theories/CavityProofs.v
theories/CavityRefutations.v
theories/Properties17.v
theories/EdgeProofs.v
theories/EdgeRefutations.v
theories/Documented.v
theories/Tested.v
theories/ResonatorProofs.v
theories/ResonatorRefutations.v
theories/Properties18.v
theories/ImageProofs.v
theories/Units.v
theories/ScaleProofs.v
theories/ScaleRefutations.v
theories/Properties19.v
theories/Limits.v
theories/SearchAny.v
theories/LimitProofs.v
theories/LimitRefutations.v
theories/Properties20.v
theories/Saving.v
theories/SavingProofs.v
theories/SavingRefutations.v
theories/CompoundProofs.v
theories/Properties21.v
theories/Outline.v
theories/OutlineProofs.v
theories/OutlineRefutations.v
theories/Properties22.v
theories/FNumberProofs.v
theories/Samples4.v
theories/FNumberRefutations.v
theories/Properties23.v
theories/Rounding.v
theories/RoundingOps.v
theories/Exact.v
theories/FloatTrace.v
theories/FloatGroup.v
theories/FloatSamples.v
theories/Properties24.v
theories/OwnProofs.v
theories/Properties25.v
theories/FloatBuild.v
theories/BuildSamples.v
theories/Properties26.v
theories/FloatImage.v
theories/ImageSamples.v
theories/Properties27.v
theories/ShapeProofs.v
theories/Properties28.v
theories/CavityFigure.v
theories/RemainingProofs.v
theories/Properties29.v
theories/Viewer.v
theories/ViewerProofs.v
theories/CommandLine.v
theories/CommandProofs.v
theories/Properties30.v
theories/TightProofs.v
theories/Properties31.v
theories/ZemaxText.v
theories/ZemaxTextProofs.v
theories/Properties32.v
theories/EqualRays.v
theories/Properties33.v
theories/BeamUnits.v
theories/BeamUnitsRefutations.v
theories/Properties34.v
theories/MirrorRays.v
theories/MirrorQueries.v
theories/StopEach.v
theories/Properties35.v
theories/MixedTrace.v
theories/MixedProofs.v
theories/MixedRefutations.v
theories/Properties36.v
theories/ObjectFan.v
theories/ObjectFanProofs.v
theories/ObjectFanRefutations.v
theories/Properties37.v
theories/ConjugateParts.v
theories/ConjugateRefutations.v
theories/Properties38.v
theories/ChoiceProofs.v
theories/Properties39.v
theories/FanEven.v
theories/FanRefutations.v
theories/Properties40.v
theories/MixedRays.v
theories/Properties41.v
theories/CameraField.v
theories/Properties42.v
theories/TeleProofs.v
theories/TeleRefutations.v
theories/Properties43.v
theories/RelayField.v
theories/Properties44.v
theories/BeamImage.v
theories/Properties45.v
theories/BeamFourier.v
theories/Properties46.v
