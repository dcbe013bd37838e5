-Q theories Verif
theories/Args_Props.v
theories/Base.v
theories/Buf_Atr_Props.v
theories/Buf_Macd_Props.v
theories/Buf_Mom_Props.v
theories/Buf_Proofs.v
theories/Buf_Props.v
theories/Buf_Signal_Props.v
theories/Choice_Props.v
theories/Chol_Model.v
theories/Chol_Proofs.v
theories/Clust_Gap_Props.v
theories/Clust_HC_Props.v
theories/Clust_Model.v
theories/Clust_Opt_Props.v
theories/Clust_Silh_Props.v
theories/Clust_Spec.v
theories/Cov_Eig_Props.v
theories/Cov_Examples.v
theories/Cov_Int_Model.v
theories/Cov_Int_Props.v
theories/Cov_MP_Props.v
theories/Cov_Model.v
theories/Cov_More_Props.v
theories/Cov_Props.v
theories/Cov_Spec.v
theories/Cusum_Props.v
theories/Cusum_Spec.v
theories/Cut_Model.v
theories/Cut_Proofs.v
theories/Cut_Props.v
theories/Cut_Spec.v
theories/Deg_Props.v
theories/Det.v
theories/Dist_Model.v
theories/Dist_More_Props.v
theories/Dist_Names_Props.v
theories/Dist_Proofs.v
theories/Dist_Props.v
theories/Dist_Spec.v
theories/Div_Model.v
theories/Div_More_Props.v
theories/Div_Props.v
theories/Ewm_Proofs.v
theories/Feat_Avg_Props.v
theories/Feat_Band_Props.v
theories/Feat_Causal_Props.v
theories/Feat_Model.v
theories/Feat_More_Props.v
theories/Feat_Ops.v
theories/Feat_Proofs.v
theories/Feat_Spec.v
theories/Few_Props.v
theories/Fit_Nll_Props.v
theories/Freq_Model.v
theories/Freq_Proofs.v
theories/Freq_Props.v
theories/Freq_Range_Props.v
theories/Gauss.v
theories/Gen_Model.v
theories/Gen_Props.v
theories/Gen_Spec.v
theories/Hist_Model.v
theories/Hist_Props.v
theories/Hist_Spec.v
theories/Info_Model.v
theories/Info_More_Props.v
theories/Info_Proofs.v
theories/Info_Props.v
theories/Info_Spec.v
theories/Kfold_Proofs.v
theories/Kfold_Props.v
theories/Kfold_Run_Proofs.v
theories/Kfold_Run_Props.v
theories/Kfold_Spec.v
theories/Lab_Model.v
theories/Lab_Proofs.v
theories/Lab_Props.v
theories/Lab_Spec.v
theories/Label_Props.v
theories/Law_Props.v
theories/Lin.v
theories/Link_Avg_Props.v
theories/Link_Cut_Props.v
theories/Link_Data_Props.v
theories/Link_Model.v
theories/Link_Opt_Props.v
theories/Link_Recover_Props.v
theories/Link_Rows_Props.v
theories/Link_Run.v
theories/Link_Same.v
theories/Link_Same_Props.v
theories/Link_Sep.v
theories/Link_Spec.v
theories/Link_Tree.v
theories/Load_Model.v
theories/Load_Once_Props.v
theories/Load_Props.v
theories/Load_Spec.v
theories/Micro_Edge_Props.v
theories/Micro_Edge_Spec.v
theories/Micro_Inv_Props.v
theories/Micro_Props.v
theories/Micro_Spec.v
theories/Micro_Spread_Props.v
theories/Micro_Vol_Props.v
theories/Micro_Vol_Spec.v
theories/Num.v
theories/OUFit_Cor_Props.v
theories/OUFit_Props.v
theories/OUFit_Spec.v
theories/Path_Model.v
theories/Path_Props.v
theories/Path_Spec.v
theories/Rnd_Corr_Props.v
theories/Rnd_Exact.v
theories/Rnd_Float.v
theories/Rnd_Model.v
theories/Rnd_Proofs.v
theories/Rnd_Props.v
theories/Rnd_Spec.v
theories/SerIx_Model.v
theories/SerIx_Props.v
theories/Sim_Cor_Fit_Props.v
theories/Sim_Cor_Nll_Props.v
theories/Sim_Cor_OU_Props.v
theories/Sim_Cor_Props.v
theories/Sim_Cor_Spec.v
theories/Sim_Cor_Step_Props.v
theories/Sim_Extra_Props.v
theories/Sim_Fit_Proofs.v
theories/Sim_Fit_Props.v
theories/Sim_Model.v
theories/Sim_OU_Props.v
theories/Sim_Proofs.v
theories/Sim_Props.v
theories/Sim_Spec.v
theories/Sim_Use_Props.v
theories/Split_Model.v
theories/Split_Proofs.v
theories/Split_Props.v
theories/Star_Model.v
theories/Star_Props.v
theories/Star_Spec.v
theories/Star_Sub_Props.v
theories/Sums.v
theories/Types_Model.v
theories/Types_Props.v
theories/Util_Model.v
theories/Util_Props.v
theories/Util_Spec.v
theories/Walk_More_Props.v
theories/Walk_Proofs.v
theories/Walk_Props.v
theories/WordWF_Model.v
theories/WordWF_Props.v
theories/Word_Model.v
theories/Word_Props.v
