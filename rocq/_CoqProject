-Q theories Verif

theories/M_Py.v
theories/S_Mat.v
theories/M_Material.v
theories/M_Laminate.v
theories/M_LamHistory.v
theories/L_Mat.v
theories/L_Lam.v
theories/S_Laminate.v
theories/S_Material.v
theories/L_LamAlg.v
theories/L_LamSums.v
theories/L_LamEnergy.v
theories/T_Laminate.v
theories/T_History.v
theories/T_Stiffness.v
theories/P_Laminate.v
theories/P_History.v
theories/P_Stiffness.v
theories/M_Linalg.v
theories/L_Linalg.v
theories/M_Strength.v
theories/S_Strength.v
theories/L_Strength.v
theories/T_Strength.v
theories/P_Strength.v
theories/M_Float.v
theories/M_Validate.v
theories/S_Validate.v
theories/L_Float.v
theories/M_MatObj.v
theories/S_MatObj.v
theories/T_Validate.v
theories/T_Names.v
theories/P_Validate.v
theories/P_Names.v
theories/M_Margin.v
theories/S_Margin.v
theories/T_Margin.v
theories/P_Margin.v
theories/M_Nastran.v
theories/S_Nastran.v
theories/L_Nastran.v
theories/T_Nastran.v
theories/P_Nastran.v
theories/M_Plate.v
theories/S_Plate.v
theories/L_Plate.v
theories/T_Plate.v
theories/P_Plate.v
theories/M_K.v
theories/M_Tables.v
theories/M_Shape.v
theories/M_Expr.v
theories/M_RealArith.v
theories/S_Bardell.v
theories/L_Parse.v
theories/L_Poly.v
theories/L_Shape.v
theories/L_Tab.v
theories/S_Energy.v
theories/L_TabV.v
theories/M_Plot.v
theories/S_Shape.v
theories/L_FirstK.v
theories/T_Shape.v
theories/P_Shape.v
theories/S_K.v
theories/L_K.v
theories/L_KR.v
theories/M_FloatArith.v
theories/T_K.v
theories/P_K.v
theories/L_Energy.v
theories/L_Indep.v
theories/S_Ritz.v
theories/L_Ritz.v
theories/L_Ends.v
theories/T_Energy.v
theories/P_Energy.v
theories/L_ABD.v
theories/T_ABD.v
theories/P_ABD.v
theories/L_Quad.v
theories/M_Buckling.v
theories/S_Eigen.v
theories/L_Eigen.v
theories/T_Buckling.v
theories/P_Buckling.v
theories/M_Optimize.v
theories/S_Optimize.v
theories/T_Optimize.v
theories/P_Optimize.v
theories/S_Compare.v
theories/T_Compare.v
theories/S_Outer.v
theories/T_Outer.v
theories/P_Compare.v
theories/P_Outer.v
theories/M_PlateHistory.v
theories/S_PlateHistory.v
theories/T_PlateHistory.v
theories/P_PlateHistory.v
theories/M_Gen.v
theories/S_Space.v
theories/L_Legendre.v
theories/L_Space.v
theories/T_Gen.v
theories/P_Gen.v
theories/T_Space.v
theories/P_Space.v
theories/L_Spectral.v
theories/S_Convex.v
theories/T_Solver.v
theories/P_Solver.v
theories/T_Convex.v
theories/P_Convex.v
theories/L_TabX.v
theories/S_Stored.v
theories/T_Stored.v
theories/P_Stored.v
theories/T_Perturb.v
theories/P_Perturb.v
theories/S_Round.v
theories/L_Round.v
theories/L_RoundTab.v
theories/T_Round.v
theories/P_Round.v
theories/M_LamArith.v
theories/S_LamRound.v
theories/L_LamRound.v
theories/T_LamRound.v
theories/P_LamRound.v
theories/L_Wirtinger.v
theories/S_Bounds.v
theories/T_Bounds.v
theories/P_Bounds.v
theories/S_Mirror.v
theories/T_Mirror.v
theories/P_Mirror.v
theories/S_Reserve.v
theories/T_Reserve.v
theories/P_Reserve.v
theories/S_Extreme.v
theories/T_Extreme.v
theories/P_Extreme.v
theories/M_GenFile.v
theories/S_GenFile.v
theories/L_GenFile.v
theories/T_GenFile.v
theories/P_GenFile.v
theories/S_Limit.v
theories/L_Weier.v
theories/L_Approx.v
theories/L_Limit.v
theories/T_Limit.v
theories/P_Limit.v
theories/M_Alias.v
theories/S_Alias.v
theories/L_Alias.v
theories/T_Alias.v
theories/P_Alias.v
theories/S_Sens.v
theories/T_Sens.v
theories/P_Sens.v
theories/M_MatFloat.v
theories/S_MatFloat.v
theories/L_MatFloat.v
theories/T_MatFloat.v
theories/P_MatFloat.v
theories/M_LayupFloat.v
theories/S_LayupFloat.v
theories/L_LayupFloat.v
theories/T_LayupFloat.v
theories/P_LayupFloat.v
theories/S_Coupled.v
theories/T_Coupled.v
theories/P_Coupled.v
theories/M_Repr.v
theories/S_Repr.v
theories/T_Repr.v
theories/P_Repr.v
theories/S_Higher.v
theories/L_Higher.v
theories/T_Higher.v
theories/P_Higher.v
theories/S_HigherLimit.v
theories/T_HigherLimit.v
theories/P_HigherLimit.v
theories/M_OptFloat.v
theories/S_OptFloat.v
theories/T_OptFloat.v
theories/P_OptFloat.v
theories/T_Convert.v
theories/P_Convert.v
theories/M_LpFloat.v
theories/S_LpFloat.v
theories/T_LpFloat.v
theories/P_LpFloat.v
theories/M_XiFloat.v
theories/S_XiFloat.v
theories/L_XiFloat.v
theories/T_XiFloat.v
theories/P_XiFloat.v
theories/M_StrengthFloat.v
theories/S_StrengthFloat.v
theories/L_StrengthFloat.v
theories/L_StrengthErr.v
theories/T_StrengthFloat.v
theories/P_StrengthFloat.v
theories/M_BucklingFloat.v
theories/S_BucklingFloat.v
theories/L_Inexact.v
theories/T_BucklingFloat.v
theories/P_BucklingFloat.v
theories/M_NcrFloat.v
theories/S_NcrFloat.v
theories/T_NcrFloat.v
theories/P_NcrFloat.v
theories/S_LoadFloat.v
theories/T_LoadFloat.v
theories/P_LoadFloat.v
theories/S_AbdFloat.v
theories/T_AbdFloat.v
theories/P_AbdFloat.v
theories/M_PlotFloat.v
theories/S_PlotFloat.v
theories/L_PlotFloat.v
theories/T_PlotFloat.v
theories/P_PlotFloat.v
theories/M_PlotOptFloat.v
theories/S_PlotOptFloat.v
theories/T_PlotOptFloat.v
theories/P_PlotOptFloat.v
