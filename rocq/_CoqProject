-Q theories Verif

theories/Ana_model.v
theories/Ana_proofs.v
theories/Ana_props.v
theories/Ana_spec.v
theories/Atomic_model.v
theories/Atomic_proofs.v
theories/Atomic_props.v
theories/BLog_model.v
theories/BLog_proofs.v
theories/BLog_props.v
theories/BLog_spec.v
theories/Bench_model.v
theories/Bench_proofs.v
theories/Bench_props.v
theories/Bench_spec.v
theories/BindC_proofs.v
theories/Bind_model.v
theories/Bind_proofs.v
theories/Bind_props.v
theories/Bind_spec.v
theories/CEB_model.v
theories/CEB_proofs.v
theories/CEB_props.v
theories/CEB_spec.v
theories/CEB_top.v
theories/CEst_model.v
theories/CEst_proofs.v
theories/CEst_props.v
theories/CEst_spec.v
theories/CHash_model.v
theories/CHash_proofs.v
theories/CHash_props.v
theories/CHash_spec.v
theories/Cache_model.v
theories/Cache_proofs.v
theories/Cache_props.v
theories/Cache_spec.v
theories/Card_model.v
theories/Card_proofs.v
theories/Card_props.v
theories/Card_spec.v
theories/Check_model.v
theories/Check_proofs.v
theories/Check_props.v
theories/Check_spec.v
theories/Clause_model.v
theories/Clause_proofs.v
theories/Clause_props.v
theories/Clause_spec.v
theories/Collections_model.v
theories/Collections_proofs.v
theories/Collections_props.v
theories/Collections_spec.v
theories/Conf_model.v
theories/Conf_props.v
theories/Conf_spec.v
theories/Conn_model.v
theories/Conn_props.v
theories/Conn_spec.v
theories/DP_model.v
theories/DP_proofs.v
theories/DP_props.v
theories/DP_spec.v
theories/DT_model.v
theories/DT_props.v
theories/DepGraph_proofs.v
theories/DepGraph_props.v
theories/Dicts_model.v
theories/Dicts_proofs.v
theories/Dicts_props.v
theories/Duck_model.v
theories/Duck_proofs.v
theories/Duck_props.v
theories/Duck_spec.v
theories/EStat_model.v
theories/EStat_proofs.v
theories/EStat_props.v
theories/EStat_spec.v
theories/Enc_model.v
theories/Enc_props.v
theories/Enc_spec.v
theories/Enum_model.v
theories/Enum_proofs.v
theories/Enum_props.v
theories/Enum_spec.v
theories/Eq_model.v
theories/Eq_proofs.v
theories/Exp_model.v
theories/Exp_props.v
theories/Exp_spec.v
theories/Expl_model.v
theories/Expl_proofs.v
theories/Expl_props.v
theories/Expl_spec.v
theories/Expr_model.v
theories/Expr_proofs.v
theories/Expr_props.v
theories/Expr_spec.v
theories/FSet.v
theories/Frag_model.v
theories/Frag_props.v
theories/Frag_spec.v
theories/Graph.v
theories/Grid_model.v
theories/Grid_props.v
theories/Grid_spec.v
theories/Hint_model.v
theories/Hint_proofs.v
theories/Hint_props.v
theories/Hint_spec.v
theories/Ident_model.v
theories/Ident_proofs.v
theories/Ident_props.v
theories/Ident_spec.v
theories/Inf_model.v
theories/Inf_props.v
theories/Inf_spec.v
theories/JG_model.v
theories/JG_proofs.v
theories/JG_props.v
theories/JG_spec.v
theories/JT_model.v
theories/JT_proofs.v
theories/JT_props.v
theories/JT_spec.v
theories/Lim_model.v
theories/Lim_props.v
theories/Lim_spec.v
theories/Log_model.v
theories/Log_props.v
theories/Log_spec.v
theories/MPrint_model.v
theories/MPrint_proofs.v
theories/MPrint_props.v
theories/MPrint_spec.v
theories/MSub_model.v
theories/MSub_proofs.v
theories/MSub_props.v
theories/MSub_sem.v
theories/MSub_spec.v
theories/MSub_top.v
theories/Maint_model.v
theories/Maint_props.v
theories/Maint_spec.v
theories/MyFmt_model.v
theories/MyFmt_props.v
theories/MyFmt_spec.v
theories/My_model.v
theories/My_proofs.v
theories/My_props.v
theories/My_spec.v
theories/Nrm_model.v
theories/Nrm_props.v
theories/Nrm_spec.v
theories/Num_model.v
theories/Num_proofs.v
theories/Num_props.v
theories/Num_spec.v
theories/PBuild_model.v
theories/PBuild_props.v
theories/PBuild_spec.v
theories/PConf_model.v
theories/PConf_props.v
theories/PConf_spec.v
theories/PGHint_model.v
theories/PGHint_proofs.v
theories/PGHint_props.v
theories/PGHint_spec.v
theories/PHint_model.v
theories/PHint_proofs.v
theories/PHint_props.v
theories/PHint_spec.v
theories/PJG_model.v
theories/PJG_props.v
theories/PJG_spec.v
theories/PLab_model.v
theories/PLab_proofs.v
theories/PLab_props.v
theories/PLab_spec.v
theories/PPrint_model.v
theories/PPrint_proofs.v
theories/PPrint_props.v
theories/PPrint_spec.v
theories/PQ_model.v
theories/PQ_props.v
theories/PQ_spec.v
theories/PText_model.v
theories/PText_proofs.v
theories/PText_props.v
theories/PText_spec.v
theories/Par_model.v
theories/Par_props.v
theories/Par_spec.v
theories/Path_model.v
theories/Path_proofs.v
theories/Path_props.v
theories/Path_spec.v
theories/PgDP_model.v
theories/PgDP_proofs.v
theories/PgDP_props.v
theories/PgDP_spec.v
theories/PgOpt_model.v
theories/PgOpt_props.v
theories/PgOpt_spec.v
theories/Pipe_model.v
theories/Pipe_proofs.v
theories/Pipe_props.v
theories/Pipe_spec.v
theories/Prec.v
theories/Pred_model.v
theories/Pred_proofs.v
theories/Pred_props.v
theories/Pred_spec.v
theories/Pty_model.v
theories/Pty_props.v
theories/Pty_spec.v
theories/PyBase.v
theories/QConv_model.v
theories/QConv_proofs.v
theories/QConv_props.v
theories/QConv_spec.v
theories/QFmt_main.v
theories/QFmt_model.v
theories/QFmt_proofs.v
theories/QFmt_props.v
theories/QFmt_spec.v
theories/QGen_model.v
theories/QGen_proofs.v
theories/QGen_props.v
theories/QGen_spec.v
theories/QGraph_model.v
theories/QGraph_proofs.v
theories/QGraph_props.v
theories/QGraph_spec.v
theories/QPlan_model.v
theories/QPlan_proofs.v
theories/QPlan_props.v
theories/QPlan_spec.v
theories/QPred2_proofs.v
theories/QPred3_proofs.v
theories/QPred_model.v
theories/QPred_proofs.v
theories/QPred_props.v
theories/QPred_spec.v
theories/QPrep_model.v
theories/QPrep_props.v
theories/QPrep_spec.v
theories/RExp_model.v
theories/RExp_proofs.v
theories/RExp_props.v
theories/RExp_spec.v
theories/RTab_model.v
theories/RTab_proofs.v
theories/RTab_props.v
theories/RTab_spec.v
theories/RVis_model.v
theories/RVis_props.v
theories/RVis_spec.v
theories/RelA_proofs.v
theories/RelF_proofs.v
theories/RelM_proofs.v
theories/RelMut_model.v
theories/RelMut_proofs.v
theories/RelMut_props.v
theories/RelMut_spec.v
theories/RelP_proofs.v
theories/RelT_proofs.v
theories/Rel_model.v
theories/Rel_proofs.v
theories/Rel_props.v
theories/Rel_spec.v
theories/Remove_proofs.v
theories/SCache_model.v
theories/SCache_props.v
theories/SCache_spec.v
theories/SText_model.v
theories/SText_proofs.v
theories/SText_props.v
theories/SText_spec.v
theories/Sch_model.v
theories/Sch_proofs.v
theories/Sch_props.v
theories/Sch_spec.v
theories/Sel_model.v
theories/Sel_proofs.v
theories/Sel_props.v
theories/Sel_spec.v
theories/Shift_model.v
theories/Shift_proofs.v
theories/Shift_props.v
theories/Shift_spec.v
theories/Src_model.v
theories/Src_proofs.v
theories/Src_props.v
theories/Src_spec.v
theories/Stats_model.v
theories/Stats_proofs.v
theories/Stats_props.v
theories/Stats_spec.v
theories/TExpl_model.v
theories/TExpl_props.v
theories/TExpl_spec.v
theories/Tmo_model.v
theories/Tmo_props.v
theories/Tmo_spec.v
theories/Tonic_model.v
theories/Tonic_props.v
theories/Tonic_spec.v
theories/Train_model.v
theories/Train_proofs.v
theories/Train_props.v
theories/Train_spec.v
theories/Trans_model.v
theories/Trans_proofs.v
theories/Trans_props.v
theories/Trans_spec.v
theories/UO_model.v
theories/UO_proofs.v
theories/UO_props.v
theories/UO_spec.v
theories/UO_top.v
theories/UesF_props.v
theories/Ues_model.v
theories/Ues_proofs.v
theories/Ues_props.v
theories/Ues_spec.v
theories/Vis_model.v
theories/Vis_props.v
theories/Vis_spec.v
theories/WLoad_model.v
theories/WLoad_props.v
theories/WLoad_spec.v
theories/Walk_proofs.v
theories/Wlk_model.v
theories/Wlk_props.v
theories/Wlk_spec.v
theories/Work_model.v
theories/Work_proofs.v
theories/Work_props.v
theories/Work_spec.v
