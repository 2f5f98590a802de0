-Q theories Verif
theories/Containers.v
theories/ContainersProofs.v
theories/IndexModel.v
theories/IndexSpec.v
theories/IndexProofs.v
theories/IndexProps.v
theories/SnapshotModel.v
theories/SnapshotSpec.v
theories/SnapshotProofs.v
theories/SnapshotProps.v
theories/LineModel.v
theories/LineSpec.v
theories/LineProofs.v
theories/LineProps.v
theories/RegionModel.v
theories/RegionSpec.v
theories/RegionProofs.v
theories/RegionProps.v
theories/SightlineModel.v
theories/SightlineSpec.v
theories/SightlineProofs.v
theories/SightlineProps.v
theories/SystemsModel.v
theories/SystemsSpec.v
theories/SystemsProofs.v
theories/SystemsProps.v
theories/AbsorptionModel.v
theories/AbsorptionSpec.v
theories/KernelProofs.v
theories/AbsorptionProofs.v
theories/TauProofs.v
theories/AbsorptionProps.v
theories/VoronoiModel.v
theories/VoronoiSpec.v
theories/VoronoiProofs.v
theories/VoronoiProps.v
theories/PipelineModel.v
theories/PipelineSpec.v
theories/PipelineProofs.v
theories/PipelineProps.v
theories/RescaleModel.v
theories/RescaleSpec.v
theories/RescaleProofs.v
theories/RescaleProps.v
theories/TableModel.v
theories/TableProofs.v
theories/TableProps.v
theories/FluxModel.v
theories/FluxSpec.v
theories/FluxProofs.v
theories/FluxProps.v
theories/FluxProofs2.v
theories/FluxProofs3.v
theories/FilterModel.v
theories/FilterSpec.v
theories/FilterProofs.v
theories/FilterProps.v
theories/ObserverModel.v
theories/ObserverSpec.v
theories/ObserverProofs.v
theories/ObserverProps.v
theories/CddfModel.v
theories/CddfSpec.v
theories/CddfProofs.v
theories/CddfProps.v
theories/ReplaceModel.v
theories/ReplaceSpec.v
theories/ReplaceProofs.v
theories/ReplaceProps.v
theories/StoreModel.v
theories/StoreSpec.v
theories/StoreProofs.v
theories/StoreProps.v
theories/StoreProofs2.v
theories/StoreProofs3.v
theories/RatesModel.v
theories/RatesSpec.v
theories/RatesProofs.v
theories/RatesProps.v
theories/NeutralModel.v
theories/NeutralSpec.v
theories/NeutralProofs.v
theories/NeutralProps.v
theories/ParticleModel.v
theories/ParticleSpec.v
theories/ParticleProofs.v
theories/ParticleProps.v
theories/NoiseModel.v
theories/NoiseSpec.v
theories/NoiseProofs.v
theories/NoiseProps.v
theories/ExtractModel.v
theories/ExtractSpec.v
theories/ExtractProofs.v
theories/ExtractProps.v
theories/CstatModel.v
theories/CstatSpec.v
theories/CstatProofs.v
theories/CstatProps.v
theories/CstatProofs2.v
theories/CstatProofs3.v
theories/OmegaModel.v
theories/OmegaSpec.v
theories/OmegaProofs.v
theories/OmegaProps.v
theories/FitModel.v
theories/FitSpec.v
theories/FitProofs.v
theories/FitProps.v
theories/FitProofs2.v
theories/BdistModel.v
theories/BdistSpec.v
theories/BdistProofs.v
theories/BdistProps.v
theories/BdistProofs2.v
theories/BdistProofs3.v
theories/CoolModel.v
theories/CoolSpec.v
theories/CoolProofs.v
theories/CoolProps.v
theories/CoolProofs2.v
theories/GridModel.v
theories/GridSpec.v
theories/GridProofs.v
theories/GridProps.v
theories/GridProofs2.v
theories/GridProofs3.v
theories/GridProofs4.v
theories/SetupModel.v
theories/SetupSpec.v
theories/SetupProofs.v
theories/SetupProps.v
theories/WeightModel.v
theories/WeightSpec.v
theories/WeightProofs.v
theories/WeightProofs2.v
theories/WeightProofs3.v
theories/WeightProps.v
theories/SplineModel.v
theories/SplineSpec.v
theories/SplineProofs.v
theories/SplineProps.v
theories/SplineProofs2.v
theories/SplineProofs3.v
theories/SplineProofs4.v
theories/SplineProofs5.v
theories/CurveModel.v
theories/CurveSpec.v
theories/CurveProofs.v
theories/CurveProps.v
theories/CurveProofs2.v
theories/CurveProofs3.v
theories/CurveProofs4.v
theories/OpenModel.v
theories/OpenSpec.v
theories/OpenProofs.v
theories/OpenProps.v
theories/OpenProofs2.v
theories/QuantModel.v
theories/QuantSpec.v
theories/QuantProofs.v
theories/QuantProps.v
theories/QuantProofs2.v
theories/HaloModel.v
theories/HaloSpec.v
theories/HaloProofs.v
theories/HaloProps.v
theories/HaloProofs2.v
theories/HaloProofs3.v
theories/HaloProofs4.v
theories/CatalogModel.v
theories/CatalogSpec.v
theories/CatalogProofs.v
theories/CatalogProps.v
theories/HalolineModel.v
theories/HalolineSpec.v
theories/HalolineProofs.v
theories/HalolineProps.v
theories/EmissionModel.v
theories/EmissionSpec.v
theories/EmissionProofs.v
theories/EmissionProps.v
theories/EmissionProofs2.v
theories/GaspropModel.v
theories/GaspropSpec.v
theories/GaspropProofs.v
theories/GaspropProps.v
theories/TempdensModel.v
theories/TempdensSpec.v
theories/TempdensProofs.v
theories/TempdensProps.v
theories/TempdensProofs2.v
theories/MetalModel.v
theories/MetalSpec.v
theories/MetalProofs.v
theories/MetalProps.v
theories/MetalProofs2.v
theories/CreadModel.v
theories/CreadSpec.v
theories/CreadProofs.v
theories/CreadProps.v
theories/CreadProofs2.v
theories/CreadProofs3.v
theories/EntryModel.v
theories/EntrySpec.v
theories/EntryProofs.v
theories/EntryProps.v
theories/EntryProofs2.v
theories/EntryProofs3.v
theories/FloatModel.v
theories/FloatSpec.v
theories/FloatProofs.v
theories/FloatProps.v
theories/FloatProofs2.v
theories/FloatProofs3.v
theories/EmsaveModel.v
theories/EmsaveSpec.v
theories/EmsaveProofs.v
theories/EmsaveProps.v
theories/EmsaveProofs2.v
theories/FaddTable.v
theories/FaddModel.v
theories/FaddSpec.v
theories/FaddProofs.v
theories/FaddProps.v
theories/FaddProofs2.v
theories/FaddProofs3.v
theories/FaddProofs4.v
theories/FaddProofs5.v
theories/FaddProofs6.v
theories/FaddProofs7.v
theories/ConstructModel.v
theories/ConstructSpec.v
theories/ConstructProofs.v
theories/ConstructProps.v
theories/ConstructProofs2.v
theories/IoniseSpec.v
theories/IoniseProofs.v
theories/IoniseProps.v
theories/IoniseProofs2.v
theories/IoniseProofs3.v
theories/IoniseProofs4.v
theories/IoniseProofs5.v
theories/StrengthSpec.v
theories/StrengthProofs.v
theories/StrengthProps.v
theories/StrengthProofs2.v
theories/StrengthProofs3.v
theories/StrengthProofs4.v
theories/StrengthProofs5.v
theories/SymmetrySpec.v
theories/SymmetryProofs.v
theories/SymmetryProps.v
theories/SymmetryProofs2.v
theories/SymmetryProofs3.v
theories/SymmetryProofs4.v
theories/SymmetryProofs5.v
theories/SessionModel.v
theories/SessionSpec.v
theories/SessionProofs.v
theories/SessionProps.v
theories/SessionProofs2.v
theories/SessionProofs3.v
theories/PlotModel.v
theories/PlotSpec.v
theories/PlotProofs.v
theories/PlotProps.v
theories/PlotProofs2.v
theories/AgreeProofs.v
theories/AgreeProps.v
theories/AgreeProofs2.v
theories/HostsModel.v
theories/HostsSpec.v
theories/HostsProofs.v
theories/HostsProps.v
theories/HostsProofs2.v
theories/CorrelModel.v
theories/CorrelSpec.v
theories/CorrelProofs.v
theories/CorrelProps.v
theories/CorrelProofs2.v
theories/StoreProofs4.v
theories/ExtractProofs2.v
theories/LineProofs2.v
theories/NeutralProofs2.v
theories/RatetabSpec.v
theories/RatetabProofs.v
theories/RatetabProps.v
theories/RatetabProofs2.v
theories/NetplotModel.v
theories/NetplotSpec.v
theories/NetplotProofs.v
theories/NetplotProps.v
theories/NetplotProofs2.v
theories/NetplotProofs3.v
theories/NetplotProofs4.v
theories/NetplotProofs5.v
theories/NetplotProofs6.v
theories/GreadModel.v
theories/GreadSpec.v
theories/GreadProofs.v
theories/GreadProps.v
theories/GreadProofs2.v
theories/VoigtsetModel.v
theories/VoigtsetSpec.v
theories/VoigtsetProofs.v
theories/VoigtsetProps.v
theories/VoigtsetProofs2.v
theories/FsearchModel.v
theories/FsearchSpec.v
theories/FsearchProofs.v
theories/FsearchProps.v
theories/FsearchProofs2.v
theories/FsearchProofs3.v
theories/FcolModel.v
theories/FcolSpec.v
theories/FcolProofs.v
theories/FcolProps.v
theories/FcolProofs2.v
theories/FcolProofs3.v
theories/FcolProofs4.v
theories/LinedataModel.v
theories/LinedataSpec.v
theories/LinedataProofs.v
theories/LinedataProps.v
theories/AllpartModel.v
theories/AllpartSpec.v
theories/AllpartProofs.v
theories/AllpartProps.v
theories/CoolProofs3.v
theories/DampModel.v
theories/DampSpec.v
theories/DampProofs.v
theories/DampProps.v
theories/ShieldSpec.v
theories/ShieldProofs.v
theories/ShieldProps.v
theories/DampProofs2.v
theories/CoolProofs4.v
