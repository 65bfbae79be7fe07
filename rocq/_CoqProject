-Q theories Verif
theories/Base.v
theories/Num.v
theories/Base_P.v
theories/Num_P.v
theories/Aggregator.v
theories/Spec_Aggregation.v
theories/Aggregator_P.v
theories/Aggregator_P2.v
theories/Aggregator_P3.v
theories/Aggregator_P4.v
theories/Aggregator_P5.v
theories/Aggregator_P6.v
theories/Aggregator_P7.v
theories/Spec_Aggregation2.v
theories/Aggregator_P8.v
theories/Aggregator_P9.v
theories/Aggregator_P10.v
theories/Props_Aggregation.v
theories/Props_Aggregation2.v
theories/PyStr.v
theories/PyStr_P.v
theories/Strings.v
theories/Spec_Strings.v
theories/Strings_P.v
theories/Exceptions.v
theories/Converter.v
theories/Corrector.v
theories/Spec_Convert.v
theories/Manip_P.v
theories/Props_Manip.v
theories/Props_Strings.v
theories/Writers.v
theories/Spec_Writers.v
theories/Writers_P.v
theories/Writers_P2.v
theories/Props_Writers.v
theories/Config.v
theories/Spec_Config.v
theories/Config_P.v
theories/Config_P2.v
theories/Props_Config.v
theories/Context.v
theories/Spec_Context.v
theories/Context_P.v
theories/Context_P2.v
theories/Props_Context.v
theories/Reader.v
theories/Spec_Reader.v
theories/Dec_P.v
theories/Reader_P.v
theories/Reader_P2.v
theories/Reader_P3.v
theories/Reader_P4.v
theories/Props_Reader.v
theories/Controller.v
theories/Spec_Controller.v
theories/Controller_P.v
theories/Controller_P2.v
theories/Controller_P3.v
theories/Controller_P4.v
theories/Controller_P5.v
theories/Controller_P6.v
theories/Props_Controller.v
theories/GribInterp.v
theories/Spec_GribInterp.v
theories/GribInterp_P.v
theories/GribInterp_P2.v
theories/GribInterp_P3.v
theories/Props_GribInterp.v
theories/Interp.v
theories/Spec_Interp.v
theories/Interp_P.v
theories/Interp_P2.v
theories/Interp_P3.v
theories/Props_Interp.v
theories/Scipy.v
theories/Spec_Scipy.v
theories/Scipy_P.v
theories/Props_Scipy.v
theories/Props_Scipy2.v
theories/Xr.v
theories/Adw.v
theories/Spec_Adw.v
theories/Adw_P.v
theories/Adw_P2.v
theories/Adw_P3.v
theories/Adw_P4.v
theories/Adw_P5.v
theories/Props_Adw.v
theories/Props_Cdd.v
theories/Geo3d.v
theories/Spec_Geo3d.v
theories/Props_Geo3d.v
theories/Bilinear.v
theories/Spec_Bilinear.v
theories/Bilinear_P.v
theories/Bilinear_P2.v
theories/Bilinear_P3.v
theories/Bilinear_P4.v
theories/Bilinear_P5.v
theories/Props_Bilinear.v
theories/Props_Bilinear2.v
theories/Props_Bilinear3.v
theories/Props_Bilinear4.v
theories/Triang.v
theories/Spec_Triang.v
theories/Triang_P.v
theories/Props_Triang.v
theories/Props_Triang2.v
theories/Props_Triang3.v
theories/Props_Triang4.v
theories/Props_Triang5.v
theories/Props_Triang6.v
theories/Props_Manip2.v
theories/Props_Config2.v
theories/Props_Writers2.v
theories/Props_Strings2.v
theories/Props_Context2.v
theories/Props_Reader2.v
theories/Setup.v
theories/Props_Setup.v
theories/Props_Setup2.v
theories/Target.v
theories/Spec_Target.v
theories/Props_Target.v
theories/Spec_Flow.v
theories/Flow_P.v
theories/Props_Flow.v
theories/Props_Cdd2.v
theories/Props_Bilinear5.v
theories/Bilinear_P6.v
theories/Props_Bilinear6.v
theories/Props_Bilinear7.v
theories/Bilinear_P7.v
theories/Bilinear_P8.v
theories/Props_Bilinear8.v
theories/Props_Bilinear9.v
theories/BilinearSplits.v
theories/Props_Bilinear10.v
theories/Props_Triang7.v
theories/Json.v
theories/Json_P.v
theories/Store.v
theories/Spec_Store.v
theories/Store_P.v
theories/Store_P2.v
theories/Store_P3.v
theories/Props_Store.v
theories/Props_Store2.v
theories/Args.v
theories/Spec_Args.v
theories/Args_P.v
theories/Args_P2.v
theories/Args_P3.v
theories/Props_Args.v
theories/Details.v
theories/Spec_Details.v
theories/Props_Details.v
theories/Program.v
theories/Spec_Program.v
theories/Program_P.v
theories/Props_Program.v
theories/Spec_Series.v
theories/Series_P.v
theories/Props_Series.v
theories/Spec_Total.v
theories/Total_P.v
theories/Props_Total.v
theories/Props_Half.v
theories/Props_Gaps.v
theories/Api.v
theories/Spec_Api.v
theories/Sim_P.v
theories/Sim_P2.v
theories/Sim_P3.v
theories/Sim_P4.v
theories/Sim_P5.v
theories/Sim_P6.v
theories/Sim_P7.v
theories/Props_Api.v
theories/Correction.v
theories/Spec_Correction.v
theories/Correction_P.v
theories/Correction_P2.v
theories/Props_Correction.v
theories/Props_Config3.v
theories/Props_Interp2.v
theories/Spec_Config4.v
theories/Props_Config4.v
theories/Float64.v
theories/Float64_P.v
theories/AggregatorWith.v
theories/Spec_Float.v
theories/AggregatorWith_P.v
theories/AggregatorWith_P2.v
theories/AggregatorWith_P3.v
theories/Float_Agg_P.v
theories/Float_Agg_P2.v
theories/Float_Over_P.v
theories/Props_Float.v
theories/Float_Sum.v
theories/Spec_Float2.v
theories/Float_Sum_P.v
theories/Float_Sum_P2.v
theories/Float_Weights_P.v
theories/Float_Weights_P2.v
theories/Float_Weights_P3.v
theories/Float_Weights_P4.v
theories/Props_Float2.v
theories/CellStore.v
theories/Cells_P.v
theories/Props_Cells.v
theories/CornersFloat.v
theories/Spec_Corners.v
theories/Corners_P.v
theories/Props_Corners.v
theories/Float_Half_P.v
theories/Props_Float3.v
theories/Install.v
theories/Spec_Install.v
theories/Install_P.v
theories/Props_Install.v
theories/Float_Line_P.v
theories/AggregatorWith_P4.v
theories/Props_Float4.v
theories/Props_Chars.v
theories/Props_Reader3.v
theories/Float_Total_P.v
theories/Props_Float5.v
theories/Numexpr.v
theories/Spec_Numexpr.v
theories/Numexpr_P.v
theories/Numexpr_P2.v
theories/Props_Numexpr.v
theories/Props_Numexpr2.v
theories/Props_Numexpr3.v
theories/Props_Lines.v
theories/Props_Target2.v
theories/Props_Widest.v
theories/Props_Overflow.v
