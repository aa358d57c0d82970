-Q theories Verif
theories/Base.v
theories/M_Sectors.v
theories/M_LegendreData.v
theories/M_Legendre.v
theories/S_Sectors.v
theories/P_Lookup.v
theories/P_Float.v
theories/P_Uniform.v
theories/P_Auto.v
theories/P_AutoR.v
theories/P_Eval.v
theories/M_Poly.v
theories/S_Poly.v
theories/P_Poly.v
theories/M_Core.v
theories/S_Core.v
theories/P_Prufer.v
theories/P_Core.v
theories/P_Core2.v
theories/T_Sectors.v
theories/T_Core.v
theories/T_Poly.v
theories/M_Search.v
theories/S_Search.v
theories/P_Search.v
theories/P_SearchR.v
theories/T_Search.v
theories/M_Eigen.v
theories/S_Eigen.v
theories/P_Eigen.v
theories/P_Eigen2.v
theories/P_Eigen3.v
theories/P_Eigen4.v
theories/T_Eigen.v
theories/M_Half.v
theories/T_Half.v
theories/M_Periodic.v
theories/T_Periodic.v
theories/S_Legendre.v
theories/P_Legendre.v
theories/T_Legendre.v
theories/M_Liouville.v
theories/S_Liouville.v
theories/P_Liouville.v
theories/P_Liouville2.v
theories/P_Liouville3.v
theories/T_Liouville.v
theories/M_Matscs.v
theories/P_Matscs.v
theories/T_Matscs.v
theories/M_Lifetime.v
theories/T_Lifetime.v
theories/M_Python.v
theories/T_Python.v
theories/S_Eta.v
theories/M_Eta.v
theories/P_Eta.v
theories/P_Eta2.v
theories/T_Eta.v
theories/M_TableData.v
theories/M_Formulas.v
theories/S_Formulas.v
theories/P_Terms.v
theories/P_Terms2.v
theories/P_Formulas.v
theories/P_Formulas2.v
theories/P_Formulas3.v
theories/P_Formulas4.v
theories/P_Gronwall.v
theories/P_Accuracy.v
theories/P_Formulas5.v
theories/P_Accuracy2.v
theories/P_WitnessData.v
theories/P_Accuracy3.v
theories/P_Accuracy4.v
theories/P_Formulas6.v
theories/P_Exist.v
theories/T_Formulas.v
theories/S_Accuracy.v
theories/P_Global.v
theories/P_Global2.v
theories/P_Global3.v
theories/P_Global4.v
theories/P_Global5.v
theories/T_Accuracy.v
theories/M_CoupledData.v
theories/M_Coupled.v
theories/S_Coupled.v
theories/P_WTerms.v
theories/P_Coupled.v
theories/P_Coupled2.v
theories/P_Coupled3.v
theories/P_Coupled4.v
theories/T_Coupled.v
theories/S_Zeros.v
theories/P_Lift.v
theories/P_Lift2.v
theories/P_Cross.v
theories/P_Step.v
theories/P_Step2.v
theories/P_Count.v
theories/P_Count2.v
theories/P_Constant.v
theories/P_Sturm.v
theories/P_Sturm2.v
theories/P_Sturm3.v
theories/T_Zeros.v
theories/T_Sturm.v
theories/S_Hill.v
theories/P_Hill.v
theories/P_Hill2.v
theories/P_Hill3.v
theories/T_Hill.v
theories/T_Hill2.v
theories/P_Hill4.v
theories/P_HillK.v
theories/T_Hill3.v
theories/T_HillK.v
theories/P_Sturm4.v
theories/T_Bracket.v
theories/S_Mirror.v
theories/P_Mirror.v
theories/T_Mirror.v
theories/P_Weyl.v
theories/T_Weyl.v
theories/P_EigenX.v
theories/P_EigenX2.v
theories/P_EigenX3.v
theories/T_EigenX.v
theories/RCField.v
theories/M_Angle.v
theories/S_Channel.v
theories/S_Angle.v
theories/P_Arg.v
theories/P_Angle.v
theories/P_Angle2.v
theories/P_Angle3.v
theories/P_Angle4.v
theories/P_CConst.v
theories/M_CoupledRun.v
theories/S_CoupledRun.v
theories/P_Angle5.v
theories/P_Angle6.v
theories/P_FTA.v
theories/T_Angle.v
theories/S_Control.v
theories/P_Control.v
theories/P_Control2.v
theories/P_Error.v
theories/T_Control.v
theories/T_Liouville2.v
theories/M_Y.v
theories/T_Y.v
theories/T_Y2.v
theories/P_Newton.v
theories/P_Newton2.v
theories/P_Newton3.v
theories/T_Newton.v
theories/M_CoupledError.v
theories/P_CoupledError.v
theories/T_CoupledError.v
theories/T_ByIndex.v
theories/T_ErrorBound.v
theories/M_Profiler.v
theories/T_Profiler.v
theories/M_Bindings.v
theories/T_Bindings.v
theories/P_Bisect.v
theories/T_Bisect.v
theories/T_Shift.v
theories/T_Units.v
theories/T_Convert.v
theories/T_Basis.v
