-Q theories Verif
theories/Prelude.v
theories/PreludeFacts.v
theories/M_Agg.v
theories/M_Assess.v
theories/M_Asset.v
theories/M_Base.v
theories/M_Batch.v
theories/M_Chunk.v
theories/M_Cli.v
theories/M_Config.v
theories/M_DModel.v
theories/M_Damage.v
theories/M_Demand.v
theories/M_Dist.v
theories/M_Dlml.v
theories/M_Dv.v
theories/M_FileIO.v
theories/M_Fit.v
theories/M_Library.v
theories/M_Load.v
theories/M_Log.v
theories/M_LossCalc.v
theories/M_LossDS.v
theories/M_LossLF.v
theories/M_NNR.v
theories/M_Obtain.v
theories/M_Outputs.v
theories/M_Params.v
theories/M_Percentile.v
theories/M_Regional.v
theories/M_Report.v
theories/M_Rng.v
theories/M_Samples.v
theories/M_Scaling.v
theories/M_Session.v
theories/M_UQ.v
theories/S_Agg.v
theories/S_Assess.v
theories/S_Asset.v
theories/S_Base.v
theories/S_Batch.v
theories/S_Chunk.v
theories/S_Cli.v
theories/S_Components.v
theories/S_Config.v
theories/S_DModel.v
theories/S_Damage.v
theories/S_Demand.v
theories/S_Dist.v
theories/S_Dlml.v
theories/S_Dv.v
theories/S_FileIO.v
theories/S_Fit.v
theories/S_Hazus.v
theories/S_Library.v
theories/S_Load.v
theories/S_Log.v
theories/S_LossCalc.v
theories/S_LossDS.v
theories/S_LossLF.v
theories/S_NNR.v
theories/S_Outputs.v
theories/S_Params.v
theories/S_Percentile.v
theories/S_Realizations.v
theories/S_Regional.v
theories/S_Report.v
theories/S_Rng.v
theories/S_Samples.v
theories/S_Scaling.v
theories/S_Session.v
theories/S_UQ.v
theories/P_Agg.v
theories/P_Assess.v
theories/P_Asset.v
theories/P_Base.v
theories/P_Batch.v
theories/P_Cal.v
theories/P_Chunk.v
theories/P_Cli.v
theories/P_Comb.v
theories/P_Components.v
theories/P_Config.v
theories/P_DModel.v
theories/P_Dist.v
theories/P_Dlml.v
theories/P_Eval.v
theories/P_Fema.v
theories/P_FileIO.v
theories/P_Fit.v
theories/P_Frag.v
theories/P_Hazus.v
theories/P_Interp.v
theories/P_Load.v
theories/P_Loc.v
theories/P_Log.v
theories/P_LossDS.v
theories/P_LossLF.v
theories/P_LossRealizations.v
theories/P_NNR.v
theories/P_Obtain.v
theories/P_Outputs.v
theories/P_Params.v
theories/P_Percentile.v
theories/P_Proc.v
theories/P_Qty.v
theories/P_Realizations.v
theories/P_Reg.v
theories/P_Regional.v
theories/P_Report.v
theories/P_Req.v
theories/P_Rid.v
theories/P_Rng.v
theories/P_Root.v
theories/P_Sample.v
theories/P_Samples.v
theories/P_Scaling.v
theories/P_Session.v
theories/P_Text.v
theories/P_Var.v
theories/Pandas.v
theories/PandasFacts.v
theories/T_Agg.v
theories/T_Assess.v
theories/T_Asset.v
theories/T_Base.v
theories/T_Batch.v
theories/T_Chunk.v
theories/T_Cli.v
theories/T_Components.v
theories/T_Config.v
theories/T_DModel.v
theories/T_Damage.v
theories/T_Demand.v
theories/T_Dist.v
theories/T_Dlml.v
theories/T_Dv.v
theories/T_FileIO.v
theories/T_Fit.v
theories/T_Frag.v
theories/T_Hazus.v
theories/T_Library.v
theories/T_Load.v
theories/T_Log.v
theories/T_LossCalc.v
theories/T_LossDS.v
theories/T_LossLF.v
theories/T_LossRealizations.v
theories/T_NNR.v
theories/T_Obtain.v
theories/T_Outputs.v
theories/T_Params.v
theories/T_Percentile.v
theories/T_Realizations.v
theories/T_Regional.v
theories/T_Report.v
theories/T_Rng.v
theories/T_Samples.v
theories/T_Scaling.v
theories/T_Session.v
theories/T_UQ.v
