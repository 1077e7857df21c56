-Q theories Verif
theories/AdvModel.v
theories/AdvProofs.v
theories/AdvProps.v
theories/AnisoModel.v
theories/AnisoProofs.v
theories/AnisoProps.v
theories/AnisoViscModel.v
theories/AnisoViscProofs.v
theories/AnisoViscProps.v
theories/BCModel.v
theories/BCProofs.v
theories/BCProps.v
theories/Base.v
theories/BreakpointMain.v
theories/BreakpointModel.v
theories/BreakpointNt.v
theories/BreakpointProofs.v
theories/BreakpointProps.v
theories/CallbackModel.v
theories/CallbackProps.v
theories/CharProofs.v
theories/CkptModel.v
theories/CkptProofs.v
theories/CkptProps.v
theories/CoolProps.v
theories/DefMapModel.v
theories/DefMapProps.v
theories/DiffCore.v
theories/DiffModel.v
theories/DiffProofs.v
theories/DiffProps.v
theories/DirectModel.v
theories/DirectProps.v
theories/FStrainModel.v
theories/FStrainProps.v
theories/FlagModel.v
theories/FlagProps.v
theories/FlowModel.v
theories/FlowProps.v
theories/GSModel.v
theories/GSProofs.v
theories/GSProps.v
theories/GravModel.v
theories/GravProofs.v
theories/GravProps.v
theories/GridModel.v
theories/GridProofs.v
theories/GridProps.v
theories/InflowProps.v
theories/InitChainProps.v
theories/InitModel.v
theories/InitProofs.v
theories/InitProps.v
theories/ItpModel.v
theories/ItpProofs.v
theories/ItpProps.v
theories/JacModel.v
theories/JacNeg.v
theories/JacPoint.v
theories/JacProofs.v
theories/JacProps.v
theories/JacT.v
theories/JacX.v
theories/JacZ.v
theories/KspProps.v
theories/LayoutProps.v
theories/LinSolve.v
theories/LineSearchModel.v
theories/LineSearchProps.v
theories/MarkFileModel.v
theories/MarkFileProps.v
theories/MarkerModel.v
theories/MatGridModel.v
theories/MatGridProps.v
theories/MatProofs.v
theories/MeltModel.v
theories/MeltProps.v
theories/MemFit.v
theories/MemModel.v
theories/MemProofs.v
theories/MemProps.v
theories/MemRun.v
theories/MemSize.v
theories/MoveProps.v
theories/NonlinModel.v
theories/NonlinProofs.v
theories/NonlinProps.v
theories/NumModel.v
theories/NumProofs.v
theories/NumProps.v
theories/OptionsModel.v
theories/OptionsProofs.v
theories/OptionsProps.v
theories/OutModel.v
theories/OutProps.v
theories/P2GModel.v
theories/P2GProofs.v
theories/P2GProps.v
theories/PDModel.v
theories/PDProps.v
theories/ParamModel.v
theories/ParamProofs.v
theories/ParamProps.v
theories/PhaseGridModel.v
theories/PhaseGridProofs.v
theories/PhaseGridProps.v
theories/PolarModel.v
theories/PolarProofs.v
theories/PolarProps.v
theories/RHSModel.v
theories/RHSProps.v
theories/ReseedModel.v
theories/ReseedProofs.v
theories/ReseedProps.v
theories/RheoModel.v
theories/RheoProofs.v
theories/RheoProps.v
theories/SaveModel.v
theories/SaveProps.v
theories/SeedModel.v
theories/SeedProofs.v
theories/SeedProps.v
theories/SeriesModel.v
theories/SeriesProps.v
theories/SetupModel.v
theories/SetupProps.v
theories/SideModel.v
theories/SideProofs.v
theories/SideProps.v
theories/SolverModel.v
theories/SolverProofs.v
theories/SolverProps.v
theories/SparseConvModel.v
theories/SparseConvProps.v
theories/StokesColProps.v
theories/StokesModel.v
theories/StokesProofs.v
theories/StokesProps.v
theories/StokesSym.v
theories/StokesX.v
theories/StokesZ.v
theories/StopProps.v
theories/StrainProps.v
theories/StrengthProps.v
theories/SubgridModel.v
theories/SubgridProps.v
theories/SurfModel.v
theories/SurfProofs.v
theories/SurfProps.v
theories/TableProps.v
theories/ThreadsModel.v
theories/ThreadsProofs.v
theories/ThreadsProps.v
theories/TimeStepModel.v
theories/TimeStepProofs.v
theories/TimeStepProps.v
theories/TopoGridModel.v
theories/TopoGridProps.v
theories/TransProps.v
theories/UnitProps.v
theories/VecModel.v
theories/VecProps.v
theories/ViscGridModel.v
theories/ViscGridProps.v
theories/VizModel.v
theories/VizProps.v
