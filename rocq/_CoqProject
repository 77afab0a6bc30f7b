-Q theories Verif

theories/Comb.v
theories/CombSpec.v
theories/CombProofs.v
theories/P_Comb.v
theories/Template.v
theories/TemplateSpec.v
theories/TemplateProofs.v
theories/P_Template.v
theories/Sql.v
theories/SqlSpec.v
theories/SqlProofs.v
theories/P_Sql.v
theories/Fs.v
theories/FsProofs.v
theories/BackupProofs.v
theories/P_Fs.v
theories/Batch.v
theories/BatchSpec.v
theories/BatchProofs.v
theories/BatchInv.v
theories/BatchRows.v
theories/BatchExample.v
theories/P_Batch.v
theories/BatchFileSpec.v
theories/BatchFiles.v
theories/BatchFiles2.v
theories/BatchFiles3.v
theories/BatchFail.v
theories/Calcs.v
theories/CalcsProofs.v
theories/P_BatchFiles.v
theories/P_Calcs.v
theories/Getters.v
theories/GettersSpec.v
theories/GettersProofs.v
theories/StructGetters.v
theories/StructGettersSpec.v
theories/StructGettersProofs.v
theories/Units.v
theories/UnitsSpec.v
theories/UnitsProofs.v
theories/Classes.v
theories/ClassesProofs.v
theories/P_Getters.v
theories/Traj.v
theories/TrajSpec.v
theories/TrajProofs.v
theories/ConcatProofs.v
theories/Mix.v
theories/MixSpec.v
theories/MixProofs.v
theories/P_Traj.v
theories/CoordTrans.v
theories/CoordTransSpec.v
theories/CoordTransProofs.v
theories/P_CoordTrans.v
theories/Vec3.v
theories/Wrap.v
theories/WrapSpec.v
theories/WrapProofs.v
theories/P_Wrap.v
theories/Cells.v
theories/CellsSpec.v
theories/CellsProofs.v
theories/P_Cells.v
theories/Scell.v
theories/ScellSpec.v
theories/ScellProofs.v
theories/P_Scell.v
theories/Neigh.v
theories/NeighSpec.v
theories/NeighProofs.v
theories/P_Neigh.v
theories/Nd.v
theories/NdSpec.v
theories/NdProofs.v
theories/NdSumProofs.v
theories/P_Nd.v
theories/Num.v
theories/NumSpec.v
theories/NumProofs.v
theories/OrderProofs.v
theories/P_Num.v
theories/Poly.v
theories/PolySpec.v
theories/PolyProofs.v
theories/PolyMoreProofs.v
theories/LstsqProofs.v
theories/P_Poly.v
theories/Signal.v
theories/SignalSpec.v
theories/SignalProofs.v
theories/P_Signal.v
theories/Omp.v
theories/OmpProofs.v
theories/Vacf.v
theories/VacfSpec.v
theories/VacfProofs.v
theories/P_Vacf.v
theories/Pad.v
theories/PadSpec.v
theories/PadProofs.v
theories/P_Pad.v
theories/Pdos.v
theories/PdosSpec.v
theories/PdosProofs.v
theories/P_Pdos.v
theories/Smooth.v
theories/SmoothSpec.v
theories/SmoothProofs.v
theories/P_Smooth.v
theories/ArrayIO.v
theories/ArrayIOSpec.v
theories/ArrayIOProofs.v
theories/P_ArrayIO.v
theories/Dcd.v
theories/DcdSpec.v
theories/DcdProofs.v
theories/DcdFloat.v
theories/P_Dcd.v
theories/Timer.v
theories/TimerSpec.v
theories/TimerProofs.v
theories/P_Timer.v
theories/Kpath.v
theories/KpathSpec.v
theories/KpathProofs.v
theories/P_Kpath.v
theories/Random.v
theories/RandomSpec.v
theories/RandomProofs.v
theories/P_Random.v
theories/H5.v
theories/H5Spec.v
theories/H5Proofs.v
theories/P_H5.v
theories/Eos.v
theories/EosProofs.v
theories/P_Eos.v
theories/Thermo.v
theories/ThermoSpec.v
theories/ThermoProofs.v
theories/P_Thermo.v
theories/Ibrav.v
theories/IbravSpec.v
theories/IbravProofs.v
theories/P_Ibrav.v
theories/Rbf.v
theories/RbfSpec.v
theories/RbfProofs.v
theories/P_Rbf.v
theories/Grep.v
theories/GrepProofs.v
theories/Lammps.v
theories/LammpsSpec.v
theories/LammpsProofs.v
theories/P_Lammps.v
theories/ParserUnits.v
theories/ParserUnitsSpec.v
theories/ParserUnitsProofs.v
theories/P_ParserUnits.v
theories/Rpdf.v
theories/RpdfSpec.v
theories/RpdfProofs.v
theories/P_Rpdf.v
theories/OmpPriv.v
theories/OmpPrivProofs.v
theories/Dist.v
theories/DistSpec.v
theories/DistProofs.v
theories/DistTraj.v
theories/AngleProofs.v
theories/P_Dist.v
theories/TrajStat.v
theories/TrajStatSpec.v
theories/TrajStatProofs.v
theories/P_TrajStat.v
theories/Align.v
theories/AlignSpec.v
theories/AlignProofs.v
theories/P_Align.v
theories/Grid.v
theories/GridSpec.v
theories/GridProofs.v
theories/P_Grid.v
theories/SmoothTraj.v
theories/SmoothTrajProofs.v
theories/P_SmoothTraj.v
theories/Regex.v
theories/RegexProofs.v
theories/Pdb.v
theories/PdbSpec.v
theories/PdbProofs.v
theories/P_Pdb.v
theories/Cif.v
theories/CifSpec.v
theories/CifProofs.v
theories/P_Cif.v
theories/Decimal.v
theories/DecimalSpec.v
theories/DecimalProofs.v
theories/P_Decimal.v
theories/TextOut.v
theories/TextOutSpec.v
theories/TextOutProofs.v
theories/P_TextOut.v
theories/Species.v
theories/SpeciesSpec.v
theories/SpeciesProofs.v
theories/P_Species.v
theories/LammpsOut.v
theories/LammpsOutSpec.v
theories/LammpsOutProofs.v
theories/P_LammpsOut.v
theories/MatdynFreq.v
theories/MatdynFreqSpec.v
theories/MatdynFreqProofs.v
theories/P_MatdynFreq.v
theories/PwIn.v
theories/PwInSpec.v
theories/PwInProofs.v
theories/P_PwIn.v
theories/PwOut.v
theories/PwOutSpec.v
theories/PwOutProofs.v
theories/P_PwOut.v
theories/Cp2k.v
theories/Cp2kSpec.v
theories/Cp2kProofs.v
theories/P_Cp2k.v
theories/Cpmd.v
theories/CpmdSpec.v
theories/CpmdProofs.v
theories/P_Cpmd.v
theories/Modes.v
theories/ModesSpec.v
theories/ModesProofs.v
theories/P_Modes.v
theories/Gibbs.v
theories/GibbsSpec.v
theories/GibbsProofs.v
theories/P_Gibbs.v
theories/Fit1D.v
theories/Fit1DSpec.v
theories/P_Fit1D.v
theories/Symmetry.v
theories/SymmetrySpec.v
theories/P_Symmetry.v
theories/ConvTable.v
theories/ConvTableSpec.v
theories/P_ConvTable.v
theories/PolyFit.v
theories/PolyFitSpec.v
theories/P_PolyFit.v
theories/ExternEos.v
theories/ExternEosSpec.v
theories/P_ExternEos.v
theories/Alias.v
theories/AliasSpec.v
theories/AliasProofs.v
theories/P_Alias.v
theories/FftAxis.v
theories/FftAxisSpec.v
theories/FftAxisProofs.v
theories/P_FftAxis.v
theories/PwStart.v
theories/PwStartSpec.v
theories/PwStartProofs.v
theories/P_PwStart.v
theories/Expansion.v
theories/ExpansionSpec.v
theories/ExpansionProofs.v
theories/P_Expansion.v
theories/CalcRun.v
theories/CalcRunSpec.v
theories/P_CalcRun.v
theories/Data2d.v
theories/Data2dSpec.v
theories/P_Data2d.v
theories/FileNames.v
theories/FileNamesSpec.v
theories/P_FileNames.v
theories/Lazy.v
theories/P_Lazy.v
theories/DcdTraj.v
theories/DcdTrajSpec.v
theories/P_DcdTraj.v
theories/HyperOpt.v
theories/HyperOptSpec.v
theories/P_HyperOpt.v
theories/NeighStruct.v
theories/NeighStructSpec.v
theories/P_NeighStruct.v
theories/TrajFrames.v
theories/TrajFramesSpec.v
theories/P_TrajFrames.v
theories/SqlConn.v
theories/SqlConnSpec.v
theories/P_SqlConn.v
theories/Wien.v
theories/WienSpec.v
theories/P_Wien.v
theories/InnerPoints.v
theories/InnerPointsSpec.v
theories/P_InnerPoints.v
