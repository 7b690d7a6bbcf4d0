-Q theories Verif
theories/Common.v
theories/Constants.v
theories/HeatModel.v
theories/HeatSpec.v
theories/HeatProofs.v
theories/HeatTheorems.v
theories/SoilModel.v
theories/SoilProofs.v
theories/SoilTheorems.v
theories/AtmosphereModel.v
theories/AtmosphereProofs.v
theories/AtmosphereTheorems.v
theories/SurfaceModel.v
theories/SurfaceSpec.v
theories/SurfaceProofs.v
theories/SurfaceTheorems.v
theories/SnowModel.v
theories/SnowProofs.v
theories/SnowTheorems.v
theories/CryoModel.v
theories/CryoSpec.v
theories/CryoProofs.v
theories/CryoTheorems.v
theories/CryoAlbedoTheorems.v
theories/MultilayerModel.v
theories/MultilayerSpec.v
theories/MultilayerProofs.v
theories/RelayerProofs.v
theories/StepProofs.v
theories/HistoryProofs.v
theories/DenseProofs.v
theories/NanProofs.v
theories/MultilayerTheorems.v
theories/StateModel.v
theories/StateProofs.v
theories/StateTheorems.v
theories/MaskModel.v
theories/MaskProofs.v
theories/MaskTheorems.v
theories/RunModel.v
theories/RunProofs.v
theories/RunTheorems.v
theories/TimeModel.v
theories/TimeProofs.v
theories/TimeTheorems.v
theories/OutputModel.v
theories/OutputProofs.v
theories/CalendarProofs.v
theories/OutputTheorems.v
theories/GridOutputTheorems.v
theories/ForcingModel.v
theories/ForcingTheorems.v
theories/ResampleTheorems.v
theories/InterpModel.v
theories/InterpProofs.v
theories/InterpTheorems.v
theories/PrecipCorrTheorems.v
theories/CanopyModel.v
theories/CanopyTheorems.v
theories/EtModel.v
theories/EtSpec.v
theories/EtTheorems.v
theories/GlacierModel.v
theories/GlacierTheorems.v
theories/GlacierYearTheorems.v
theories/SunModel.v
theories/SunTheorems.v
theories/ShadowModel.v
theories/ShadowTheorems.v
theories/TerrainModel.v
theories/TerrainTheorems.v
theories/ShiftTheorems.v
theories/OpennessTheorems.v
theories/RadiationModel.v
theories/RadiationTheorems.v
theories/ClearSkyTheorems.v
theories/ParallelModel.v
theories/ParallelTheorems.v
theories/ParallelKernelTheorems.v
theories/SnowDetailTheorems.v
theories/DetailTheorems.v
theories/WaterModel.v
theories/WaterTheorems.v
theories/GridModel.v
theories/GridTheorems.v
theories/DatasetModel.v
theories/DatasetTheorems.v
theories/ReadingTheorems.v
theories/WindDirectionTheorems.v
theories/MoreDetailTheorems.v
theories/PointConfigModel.v
theories/NameProofs.v
theories/PointConfigTheorems.v
theories/GridFilesModel.v
theories/GridFilesTheorems.v
theories/SoilRunModel.v
theories/SoilRunTheorems.v
theories/MeteoFieldsModel.v
theories/MeteoFieldsTheorems.v
theories/GridBalanceModel.v
theories/GridBalanceProofs.v
theories/GridBalanceTheorems.v
theories/CryoGridModel.v
theories/CryoGridProofs.v
theories/CryoGridTheorems.v
theories/MoreDetail2Theorems.v
theories/WetBulbModel.v
theories/WetBulbProofs.v
theories/WetBulbTheorems.v
theories/EtGridModel.v
theories/EtGridSpec.v
theories/EtGridProofs.v
theories/EtGridTheorems.v
theories/LandCoverModel.v
theories/LandCoverProofs.v
theories/LandCoverTheorems.v
theories/SettingsModel.v
theories/SettingsTheorems.v
theories/RerunModel.v
theories/RerunTheorems.v
theories/StepOrderModel.v
theories/StepOrderTheorems.v
theories/CanopyFieldsModel.v
theories/CanopyFieldsTheorems.v
theories/SealedTheorems.v
theories/LossRateTheorems.v
theories/StationFieldsModel.v
theories/StationFieldsTheorems.v
theories/ExtStationsModel.v
theories/ExtStationsTheorems.v
theories/StationOrderTheorems.v
theories/RedistributionTheorems.v
theories/OpennessHeightTheorems.v
