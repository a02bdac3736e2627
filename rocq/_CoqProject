-Q theories Verif
theories/M_Base.v
theories/M_Time.v
theories/S_Time.v
theories/L_Time.v
theories/T_Time.v
theories/M_Names.v
theories/M_Lex.v
theories/S_Names.v
theories/L_Names.v
theories/T_Names.v
theories/M_Compile.v
theories/S_Lec.v
theories/L_Compile.v
theories/L_Compile2.v
theories/L_Compile3.v
theories/T_Compile.v
theories/M_Bytes.v
theories/M_Exec.v
theories/S_Eval.v
theories/L_Bytes.v
theories/L_Link.v
theories/L_Exec.v
theories/L_Exec2.v
theories/L_Eval.v
theories/M_Double.v
theories/S_Law.v
theories/L_Law.v
theories/T_Exec.v
theories/M_Kdb.v
theories/S_Kdb.v
theories/L_Kdb.v
theories/L_Kdb2.v
theories/L_Kdb3.v
theories/L_Kdb4.v
theories/L_Kdb5.v
theories/L_Kdb6.v
theories/L_Kdb7.v
theories/L_Kdb8.v
theories/L_Kdb9.v
theories/T_Kdb.v
theories/M_Vars.v
theories/L_Vars.v
theories/S_Vars.v
theories/L_Vars2.v
theories/L_Vars3.v
theories/L_Vars4.v
theories/M_Exact.v
theories/L_Vars5.v
theories/L_Vars6.v
theories/T_Vars.v
theories/M_Grep.v
theories/S_Grep.v
theories/L_Grep.v
theories/L_Grep2.v
theories/T_Grep.v
theories/M_Pack.v
theories/S_Pack.v
theories/L_Pack.v
theories/L_Pack2.v
theories/T_Pack.v
theories/M_Order.v
theories/S_Order.v
theories/L_Order.v
theories/L_Order2.v
theories/L_Order3.v
theories/L_Order4.v
theories/L_Order5.v
theories/T_Order.v
theories/M_Exo2endo.v
theories/S_Exo2endo.v
theories/L_Exo.v
theories/L_Exo2.v
theories/L_Exo3.v
theories/T_Exo2endo.v
theories/M_Simul.v
theories/S_Simul.v
theories/L_Simul.v
theories/L_Simul2.v
theories/L_Simul3.v
theories/L_Simul4.v
theories/L_Simul5.v
theories/L_Simul6.v
theories/L_Simul7.v
theories/L_Simul8.v
theories/T_Simul.v
theories/M_Aggr.v
theories/S_Aggr.v
theories/L_Aggr.v
theories/L_Aggr2.v
theories/T_Aggr.v
theories/M_Invert.v
theories/S_Invert.v
theories/L_Invert.v
theories/L_Invert2.v
theories/L_Invert3.v
theories/L_Invert4.v
theories/M_Real.v
theories/L_Invert5.v
theories/L_Invert6.v
theories/T_Invert.v
theories/M_Ident.v
theories/M_Freq.v
theories/S_Ident.v
theories/L_Same.v
theories/L_Ident.v
theories/L_Ident2.v
theories/L_Ident3.v
theories/L_Ident4.v
theories/T_Ident.v
theories/S_Freq.v
theories/L_Freq.v
theories/L_Freq2.v
theories/L_Freq3.v
theories/L_Freq4.v
theories/L_Freq5.v
theories/L_Freq6.v
theories/L_Freq7.v
theories/S_Spline.v
theories/L_Spline.v
theories/L_Spline2.v
theories/L_Spline3.v
theories/L_Spline4.v
theories/T_Spline.v
theories/T_Freq.v
theories/M_Decimal.v
theories/M_Ascii.v
theories/S_Ascii.v
theories/L_Decimal.v
theories/L_Ascii.v
theories/L_Ascii2.v
theories/T_Ascii.v
theories/L_Round.v
theories/L_Round2.v
theories/L_Round3.v
theories/L_Round4.v
theories/L_Round5.v
theories/L_Ascii3.v
theories/T_Ascii2.v
theories/M_Codepage.v
theories/M_Binary.v
theories/M_Objects.v
theories/S_Binary.v
theories/L_Codepage.v
theories/L_Objects.v
theories/L_Binary.v
theories/T_Binary.v
theories/M_Gsample.v
theories/S_Gsample.v
theories/L_Gsample.v
theories/L_Gsample2.v
theories/T_Gsample.v
theories/M_Calc.v
theories/S_Calc.v
theories/L_Calc.v
theories/T_Calc.v
theories/T_Calc2.v
theories/M_Matrix.v
theories/S_Matrix.v
theories/L_Matrix.v
theories/T_Matrix.v
theories/M_Estim.v
theories/S_Estim.v
theories/L_Estim.v
theories/L_Estim2.v
theories/L_Estim3.v
theories/T_Estim.v
theories/T_Stats.v
theories/M_Report.v
theories/L_Report.v
theories/S_Report.v
theories/S_Report2.v
theories/L_Report2.v
theories/L_Report3.v
theories/L_Report4.v
theories/T_Report.v
theories/L_Report5.v
theories/L_Report6.v
theories/L_Report7.v
theories/L_Report8.v
theories/L_Report9.v
theories/L_Report10.v
theories/T_Report2.v
theories/T_Report3.v
theories/M_Hodrick.v
theories/S_Hodrick.v
theories/L_Hodrick.v
theories/L_Hodrick2.v
theories/L_Hodrick3.v
theories/L_Hodrick4.v
theories/T_Hodrick.v
theories/M_Ras.v
theories/S_Ras.v
theories/L_Ras.v
theories/L_Ras2.v
theories/L_Ras3.v
theories/T_Ras.v
theories/M_Lists.v
theories/S_Lists.v
theories/L_Lists.v
theories/L_Lists2.v
theories/T_Lists.v
theories/M_Compare.v
theories/S_Compare.v
theories/L_Compare.v
theories/T_Compare.v
theories/M_Scan.v
theories/T_Scan.v
theories/M_AsciiEqs.v
theories/S_AsciiEqs.v
theories/L_AsciiEqs.v
theories/T_AsciiEqs.v
theories/M_Import.v
theories/S_Import.v
theories/L_Import.v
theories/T_Import.v
theories/M_Step.v
theories/S_Step.v
theories/L_Step.v
theories/T_Step.v
theories/M_Season.v
theories/S_Season.v
theories/L_Season.v
theories/L_Season2.v
theories/L_Season3.v
theories/T_Season.v
theories/M_AsciiTbl.v
theories/S_AsciiTbl.v
theories/L_AsciiTbl.v
theories/L_AsciiTbl2.v
theories/L_AsciiTbl3.v
theories/L_AsciiTbl4.v
theories/T_AsciiTbl.v
theories/M_Export.v
theories/S_Export.v
theories/L_Export.v
theories/T_Export.v
theories/M_EstSave.v
theories/S_EstSave.v
theories/L_EstSave.v
theories/T_EstSave.v
theories/M_UnitRoot.v
theories/S_UnitRoot.v
theories/T_UnitRoot.v
theories/M_SimDiag.v
theories/S_SimDiag.v
theories/L_SimDiag.v
theories/T_SimDiag.v
theories/M_ImportDif.v
theories/S_ImportDif.v
theories/L_ImportDif.v
theories/T_ImportDif.v
theories/M_SimParms.v
theories/S_SimParms.v
theories/T_SimParms.v
theories/M_ImportCmt.v
theories/S_ImportCmt.v
theories/L_ImportCmt.v
theories/T_ImportCmt.v
theories/M_ImportCmd.v
theories/S_ImportCmd.v
theories/T_ImportCmd.v
