-Q theories Verif
theories/Base.v
theories/Num.v
theories/NumR.v
theories/NumF.v
theories/NumP.v
theories/Types.v
theories/Ex.v
theories/M_Geometry.v
theories/S_Geometry.v
theories/P_Geometry.v
theories/M_Container.v
theories/P_Box.v
theories/C_Geometry.v
theories/S_Container.v
theories/P_Container.v
theories/P_Remap.v
theories/C_Container.v
theories/M_Neighbors.v
theories/S_Neighbors.v
theories/P_Neighbors.v
theories/P_Temp.v
theories/P_Cells.v
theories/P_Search.v
theories/P_FindN.v
theories/P_History.v
theories/P_Cutoff.v
theories/C_Neighbors.v
theories/C_VoroTri.v
theories/C_Embed.v
theories/M_Cubic.v
theories/S_Cubic.v
theories/P_Cubic.v
theories/C_Cubic.v
theories/M_Steinhardt.v
theories/S_Steinhardt.v
theories/P_QRun.v
theories/P_Addition.v
theories/P_Legendre.v
theories/P_Harmonics.v
theories/P_Steinhardt.v
theories/P_QInv.v
theories/P_QSys.v
theories/P_VoroTri.v
theories/S_Embed.v
theories/P_Embed.v
theories/P_QHist.v
theories/C_Steinhardt.v
theories/M_Cluster.v
theories/M_Solids.v
theories/S_Cluster.v
theories/P_Cluster.v
theories/P_ClusterRun.v
theories/P_ClusterPy.v
theories/C_Cluster.v
theories/S_Solids.v
theories/P_Order.v
theories/P_Solids.v
theories/C_Solids.v
theories/M_CNA.v
theories/S_CNA.v
theories/P_Graph.v
theories/P_CNA.v
theories/P_CNARun.v
theories/P_CNAReal.v
theories/P_Diamond.v
theories/C_CNA.v
theories/M_Local.v
theories/S_Local.v
theories/P_Centro.v
theories/P_Disorder.v
theories/P_Entropy.v
theories/C_Local.v
theories/M_Analysis.v
theories/S_Analysis.v
theories/P_Analysis.v
theories/C_Analysis.v
theories/M_Crystal.v
theories/S_Crystal.v
theories/P_Crystal.v
theories/P_Coord.v
theories/P_Perfect.v
theories/P_CrystalSys.v
theories/P_CrystalTwo.v
theories/C_Crystal.v
theories/M_Text.v
theories/P_Text.v
theories/M_Lammps.v
theories/S_Lammps.v
theories/P_Lammps.v
theories/P_Round.v
theories/P_LammpsSys.v
theories/C_Lammps.v
theories/M_Traj.v
theories/S_Traj.v
theories/P_Traj.v
theories/P_Export.v
theories/P_ExportNum.v
theories/P_TrajFile.v
theories/C_Traj.v
theories/M_Formats.v
theories/S_Formats.v
theories/P_Poscar.v
theories/P_Ase.v
theories/C_Formats.v
theories/M_Voro.v
theories/S_Voro.v
theories/P_Voro.v
theories/P_VoroSys.v
theories/C_Voro.v
theories/S_Double.v
theories/P_Double.v
theories/C_Double.v
theories/M_Energy.v
theories/S_Energy.v
theories/C_Energy.v
theories/S_Sann.v
theories/P_Sann.v
theories/C_Sann.v
theories/M_Misc.v
theories/S_Misc.v
theories/P_Misc.v
theories/C_Misc.v
theories/C_CellDouble.v
theories/S_DoubleDist.v
theories/P_DoubleDist.v
theories/C_DoubleDist.v
theories/P_CellDouble.v
theories/C_CellsDouble.v
theories/M_Atom.v
theories/S_Atom.v
theories/P_Atom.v
theories/C_Atom.v
theories/S_Store.v
theories/P_Store.v
theories/C_Store.v
theories/M_Visual.v
theories/S_Visual.v
theories/P_Visual.v
theories/C_Visual.v
theories/M_Routines.v
theories/S_Routines.v
theories/C_Routines.v
theories/S_Number.v
theories/P_Number.v
theories/C_Number.v
theories/C_DoubleMove.v
theories/S_Access.v
theories/C_Access.v
theories/S_Same.v
theories/P_Same.v
theories/C_Same.v
theories/S_Periodic.v
theories/P_Periodic.v
theories/C_Periodic.v
theories/S_PeriodicQ.v
theories/P_PeriodicQ.v
theories/C_PeriodicQ.v
theories/S_Supercell.v
theories/P_Supercell.v
theories/C_Supercell.v
theories/S_Spacing.v
theories/C_Spacing.v
