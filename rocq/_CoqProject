-Q theories Verif
theories/Acc_Proofs.v
theories/Acc_Props.v
theories/Acc_Spec.v
theories/Align_Model.v
theories/Align_Props.v
theories/Analysis_Model.v
theories/Analysis_Props.v
theories/BSDisp_Model.v
theories/BSDisp_Props.v
theories/Base.v
theories/BatchHist_Model.v
theories/BatchHist_Props.v
theories/BatchRun_Model.v
theories/BatchRun_Props.v
theories/Batch_Model.v
theories/Batch_Proofs.v
theories/Batch_Props.v
theories/BootTab_Model.v
theories/BootTab_Props.v
theories/Boot_Model.v
theories/Boot_Proofs.v
theories/Boot_Props.v
theories/CatTable_Model.v
theories/CatTable_Props.v
theories/Catalog_Model.v
theories/Catalog_Props.v
theories/Cli_Model.v
theories/Cli_Props.v
theories/CmpView_Model.v
theories/CmpView_Props.v
theories/Compare_Model.v
theories/Compare_Props.v
theories/ConPlot_Props.v
theories/ConstrX_Proofs.v
theories/ConstrX_Props.v
theories/Constr_Model.v
theories/Constr_Proofs.v
theories/Constr_Props.v
theories/Data_Model.v
theories/Data_Proofs.v
theories/Data_Props.v
theories/DispRefit_Props.v
theories/Disp_Model.v
theories/Disp_Proofs.v
theories/Disp_Props.v
theories/ErrPlot_Model.v
theories/ErrPlot_Props.v
theories/EstRun_Model.v
theories/EstRun_Props.v
theories/Est_Model.v
theories/Est_Props.v
theories/ExprStep_Model.v
theories/ExprStep_Props.v
theories/Expr_Model.v
theories/Expr_Props.v
theories/Expr_Spec.v
theories/FeatPlot_Model.v
theories/FeatPlot_Props.v
theories/Fl.v
theories/Float_Model.v
theories/Float_Proofs.v
theories/Float_Props.v
theories/Float_Spec.v
theories/Forever_Props.v
theories/Forget_Props.v
theories/GpuVal_Props.v
theories/Gpu_Model.v
theories/Gpu_Props.v
theories/Grow_Props.v
theories/HeldLimit_Props.v
theories/HeldOpt_Props.v
theories/Impute_Model.v
theories/Impute_Props.v
theories/Instal_Props.v
theories/Inverse_Model.v
theories/Inverse_Proofs.v
theories/Inverse_Props.v
theories/LSLimit_Props.v
theories/LSNMF_Model.v
theories/LSNMF_Proofs.v
theories/LSNMF_Props.v
theories/Layout_Model.v
theories/Layout_Proofs.v
theories/Layout_Props.v
theories/LossF_Proofs.v
theories/LossF_Props.v
theories/Mesh_Model.v
theories/Mesh_Props.v
theories/Metrics_Model.v
theories/Metrics_Proofs.v
theories/Metrics_Props.v
theories/Metrics_Spec.v
theories/NearOpt_Props.v
theories/Persist_Model.v
theories/Persist_Props.v
theories/PerturbCmp_Model.v
theories/PerturbCmp_Props.v
theories/Perturb_Model.v
theories/Perturb_Props.v
theories/Pipeline_Model.v
theories/Pipeline_Proofs.v
theories/Pipeline_Props.v
theories/Pipeline_Spec.v
theories/PmfCmp_Model.v
theories/PmfCmp_Props.v
theories/Progress_Model.v
theories/Progress_Props.v
theories/Progress_Spec.v
theories/PyEngine_Props.v
theories/Recomb_Model.v
theories/Recomb_Proofs.v
theories/Recomb_Props.v
theories/Refit_Model.v
theories/Refit_Proofs.v
theories/Refit_Props.v
theories/Refit_Spec.v
theories/Refused_Props.v
theories/Repeat_Props.v
theories/Report_Model.v
theories/Report_Props.v
theories/Report_Spec.v
theories/RobF_Acc.v
theories/RobF_Model.v
theories/RobF_Proofs.v
theories/RobF_Props.v
theories/RobF_Spec.v
theories/Rotation_Props.v
theories/Runs_Props.v
theories/SA_Model.v
theories/SA_Proofs.v
theories/SA_Props.v
theories/Scale_Props.v
theories/Show_Model.v
theories/Show_Props.v
theories/SimCli_Model.v
theories/SimCli_Props.v
theories/SimCmp_Model.v
theories/SimCmp_Props.v
theories/SimSA_Model.v
theories/SimSA_Props.v
theories/Sim_Model.v
theories/Sim_Props.v
theories/Split_Props.v
theories/Stream_Model.v
theories/Stream_Props.v
theories/StrictF_Props.v
theories/Strict_Props.v
theories/SymRuns_Props.v
theories/TimePlot_Model.v
theories/TimePlot_Props.v
theories/TrainOpt_Model.v
theories/TrainOpt_Props.v
theories/Train_LS.v
theories/Train_Model.v
theories/Train_Proofs.v
theories/Train_Props.v
theories/Train_Spec.v
theories/Uniform_Model.v
theories/Uniform_Props.v
theories/Utils_Model.v
theories/Utils_Props.v
theories/WSLimit_Props.v
theories/WSNMF_Model.v
theories/WSNMF_Proofs.v
theories/WSNMF_Props.v
theories/WSSym_Props.v
theories/Whiten_Model.v
theories/Workers_Model.v
theories/Workers_Props.v
theories/WsF_Model.v
theories/WsF_Proofs.v
theories/WsF_Props.v
theories/WsF_Spec.v
theories/WsRun_Model.v
theories/WsRun_Proofs.v
theories/WsRun_Props.v
theories/WsRun_Spec.v
