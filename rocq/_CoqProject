-Q theories Verif

theories/Base.v
theories/RoeModel.v
theories/RoeProofs.v
theories/EdgeModel.v
theories/EdgeProofs.v
theories/FluxProperties.v
theories/SourceModel.v
theories/SourceProofs.v
theories/SourceProperties.v
theories/HRModel.v
theories/AssemblyModel.v
theories/AssemblyProofs.v
theories/ConservationProperties.v
theories/HRProofs.v
theories/HRProperties.v
theories/PositivityProperties.v
theories/DecompModel.v
theories/DecompSpec.v
theories/DecompProofs.v
theories/DecompProperties.v
theories/TracerModel.v
theories/TracerProofs.v
theories/TracerMeshProofs.v
theories/TracerProperties.v
theories/SedimentProperties.v
theories/MusclModel.v
theories/MusclProofs.v
theories/MusclProperties.v
theories/EtaModel.v
theories/EtaProofs.v
theories/EtaProperties.v
theories/MeshGeomModel.v
theories/MeshGeomProperties.v
theories/FreeStreamProperties.v
theories/MeshMapsModel.v
theories/MeshMapsProofs.v
theories/MeshMapsProperties.v
theories/DiagModel.v
theories/DiagProperties.v
theories/TimeModel.v
theories/TimeProperties.v
theories/DataModel.v
theories/DataProofs.v
theories/DataProperties.v
theories/SetupModel.v
theories/SetupProofs.v
theories/SetupProperties.v
theories/OutputModel.v
theories/OutputSpec.v
theories/OutputProofs.v
theories/OutputProperties.v
theories/TimeSeriesModel.v
theories/TimeSeriesSpec.v
theories/TimeSeriesProofs.v
theories/TimeSeriesProperties.v
theories/CheckpointModel.v
theories/CheckpointProperties.v
theories/EnsembleModel.v
theories/EnsembleProperties.v
theories/ConfigModel.v
theories/ConfigProperties.v
theories/SubstModel.v
theories/SubstProperties.v
theories/CalendarModel.v
theories/CalendarProperties.v
theories/ForcingModel.v
theories/ForcingProofs.v
theories/ForcingProperties.v
theories/ForcingRunProperties.v
theories/FieldsModel.v
theories/FieldsProperties.v
theories/LifecycleModel.v
theories/LifecycleProperties.v
theories/AMRModel.v
theories/AMRProofs.v
theories/AMRProperties.v
theories/MMSModel.v
theories/MMSSourceProperties.v
theories/MMSProofs.v
theories/MMSDataProperties.v
theories/MMSStudyProperties.v
theories/CeedLayoutModel.v
theories/CeedLayoutSpec.v
theories/CeedLayoutProofs.v
theories/CeedLayoutProperties.v
theories/CeedEtaModel.v
theories/CeedEtaProofs.v
theories/CeedEtaProperties.v
theories/CeedMusclModel.v
theories/CeedMusclSpec.v
theories/CeedMusclProofs.v
theories/CeedMusclProperties.v
theories/CeedHRModel.v
theories/CeedHRSpec.v
theories/CeedHRProofs.v
theories/CeedHRProperties.v
theories/CeedRunModel.v
theories/CeedRunSpec.v
theories/CeedRunProofs.v
theories/CeedRunProperties.v
theories/PetscRunModel.v
theories/PetscRunSpec.v
theories/PetscRunProofs.v
theories/PetscRunProperties.v
theories/TracerDecompModel.v
theories/TracerDecompSpec.v
theories/TracerDecompProofs.v
theories/TracerDecompProperties.v
theories/PetscTracerModel.v
theories/PetscTracerSpec.v
theories/PetscTracerProofs.v
theories/PetscTracerProperties.v
theories/FortranDriverModel.v
theories/FortranDriverSpec.v
theories/FortranDriverProofs.v
theories/FortranDriverProperties.v
theories/QueriesModel.v
theories/QueriesProofs.v
theories/QueriesProperties.v
theories/GridModel.v
theories/GridProofs.v
theories/GridProperties.v
theories/MusclRunModel.v
theories/MusclRunSpec.v
theories/MusclRunProofs.v
theories/MusclRunProperties.v
theories/PetscMusclModel.v
theories/PetscMusclSpec.v
theories/PetscMusclProofs.v
theories/PetscMusclProperties.v
theories/CeedTracerSpec.v
theories/CeedTracerProofs.v
theories/CeedTracerProperties.v
theories/MonitorModel.v
theories/MonitorSpec.v
theories/MonitorProofs.v
theories/MonitorProperties.v
theories/OptionsModel.v
theories/OptionsSpec.v
theories/OptionsProofs.v
theories/OptionsProperties.v
theories/ForcingOptionsModel.v
theories/ForcingOptionsSpec.v
theories/ForcingOptionsProofs.v
theories/ForcingOptionsProperties.v
theories/RefineModel.v
theories/RefineProperties.v
theories/DriverModel.v
theories/DriverProperties.v
theories/SurviveModel.v
theories/SurviveProofs.v
theories/SurviveProperties.v
theories/ResourcesModel.v
theories/ResourcesProofs.v
theories/ResourcesChecks.v
theories/ResourcesProperties.v
theories/PreloadModel.v
theories/PreloadProperties.v
theories/FormulasModel.v
theories/FormulasProofs.v
theories/FormulasSpec.v
theories/FormulasProperties.v
theories/CellFilesModel.v
theories/CellFilesProperties.v
theories/BackendsSpec.v
theories/BackendsProperties.v
theories/BackendsTracerSpec.v
theories/BackendsTracerProperties.v
theories/DirectoriesModel.v
theories/DirectoriesSpec.v
theories/DirectoriesProofs.v
theories/DirectoriesProgress.v
theories/DirectoriesProperties.v
theories/ForcingMemoryModel.v
theories/ForcingMemorySpec.v
theories/ForcingMemoryProofs.v
theories/ForcingMemoryProperties.v
theories/MMSLevelsModel.v
theories/MMSLevelsProperties.v
theories/PartitionModel.v
theories/PartitionProperties.v
theories/LogModel.v
theories/LogProperties.v
theories/TracerSetupModel.v
theories/TracerSetupProperties.v
