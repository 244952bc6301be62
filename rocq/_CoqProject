-Q theories Verif
theories/Base.v
theories/ChainMap_Model.v
theories/ChainMap_Spec.v
theories/ChainMap_Proofs.v
theories/ChainMap_Props.v
theories/Order_Model.v
theories/Order_Spec.v
theories/Order_Proofs.v
theories/Topo_Proofs.v
theories/Order_Props.v
theories/KeyMap_Model.v
theories/KeyMap_Spec.v
theories/KeyMap_Proofs.v
theories/KeyMap_Props.v
theories/Registry_Model.v
theories/Registry_Spec.v
theories/Registry_Proofs.v
theories/Registry_Props.v
theories/Bracket_Model.v
theories/Bracket_Spec.v
theories/Bracket_Proofs.v
theories/Bracket_Props.v
theories/Counter_Model.v
theories/Counter_Proofs.v
theories/Counter_Props.v
theories/PyVal.v
theories/Cmp_Model.v
theories/Cmp_Spec.v
theories/Cmp_Proofs.v
theories/Coll_Model.v
theories/Coll_Spec.v
theories/Coll_Proofs.v
theories/Coll_Props.v
theories/Str_Model.v
theories/Str_Spec.v
theories/Str_Proofs.v
theories/Str_Props.v
theories/Query_Model.v
theories/Query_Spec.v
theories/Query_Proofs.v
theories/Query_Props.v
theories/Types_Model.v
theories/Types_Spec.v
theories/Types_Proofs.v
theories/Types_Props.v
theories/Object_Model.v
theories/Object_Spec.v
theories/Object_Props.v
theories/Inst_Model.v
theories/Inst_Spec.v
theories/Inst_Proofs.v
theories/Inst_Props.v
theories/Alias_Model.v
theories/Alias_Spec.v
theories/Alias_Proofs.v
theories/Alias_Props.v
theories/Build_Model.v
theories/Build_Spec.v
theories/Build_Props.v
theories/Lru_Model.v
theories/Uri_Model.v
theories/Uri_Spec.v
theories/Uri_Proofs.v
theories/Lru_Props.v
theories/Uri_Props.v
theories/Ns_Model.v
theories/Ns_Spec.v
theories/Ns_Proofs.v
theories/Ns_Props.v
theories/TB_Model.v
theories/TB_Proofs.v
theories/TB_Spec.v
theories/TB_Props.v
theories/Mro_Props.v
theories/Session_Model.v
theories/Session_Props.v
theories/Repo_Model.v
theories/Repo_Props.v
theories/Fkey_Model.v
theories/Fkey_Props.v
theories/File_Model.v
theories/File_Props.v
theories/Deco_Model.v
theories/Deco_Props.v
theories/With_Model.v
theories/With_Props.v
theories/Tree_Model.v
theories/Tree_Spec.v
theories/Tree_Proofs.v
theories/Tree_Props.v
theories/Xml_Model.v
theories/Xml_Spec.v
theories/Xml_Proofs.v
theories/Xml_Props.v
theories/Op_Model.v
theories/Op_Spec.v
theories/Op_Props.v
theories/Arr_Model.v
theories/Arr_Spec.v
theories/Arr_Proofs.v
theories/Arr_Props.v
theories/Argc_Model.v
theories/Argc_Spec.v
theories/Argc_Proofs.v
theories/Argc_Props.v
theories/Scal_Model.v
theories/Scal_Spec.v
theories/Scal_Proofs.v
theories/Scal_Props.v
theories/IdT_Model.v
theories/IdT_Spec.v
theories/IdT_Proofs.v
theories/IdT_Props.v
theories/Sym_Model.v
theories/Sym_Spec.v
theories/Sym_Props.v
theories/Dt_Model.v
theories/Dt_Spec.v
theories/Dt_Props.v
theories/Cx_Model.v
theories/Cx_Props.v
theories/Ls_Model.v
theories/Ls_Spec.v
theories/Ls_Props.v
theories/Walk_Model.v
theories/Walk_Spec.v
theories/Walk_Props.v
theories/Ser_Model.v
theories/Ser_Spec.v
theories/Ser_Proofs.v
theories/Ser_Props.v
theories/Vars_Model.v
theories/Vars_Spec.v
theories/Vars_Proofs.v
theories/Vars_Props.v
theories/Nev_Model.v
theories/Nev_Spec.v
theories/Nev_Proofs.v
theories/Nev_Props.v
theories/Eq_Model.v
theories/Eq_Spec.v
theories/Eq_Props.v
theories/Rel_Model.v
theories/Rel_Spec.v
theories/Rel_Proofs.v
theories/Rel_Props.v
theories/Lsv_Model.v
theories/Lsv_Spec.v
theories/Lsv_Props.v
theories/Mk_Model.v
theories/Mk_Props.v
theories/Mk_Spec.v
theories/Fi_Model.v
theories/Fi_Spec.v
theories/Fi_Props.v
theories/Rsv_Model.v
theories/Rsv_Spec.v
theories/Rsv_Props.v
theories/New_Model.v
theories/New_Spec.v
theories/New_Props.v
theories/Pp_Model.v
theories/Pp_Spec.v
theories/Pp_Props.v
theories/Nc_Model.v
theories/Nc_Spec.v
theories/Nc_Proofs.v
theories/Nc_Props.v
theories/It_Model.v
theories/It_Spec.v
theories/It_Proofs.v
theories/It_Props.v
theories/Tn_Model.v
theories/Tn_Spec.v
theories/Tn_Props.v
theories/Cast_Model.v
theories/Cast_Spec.v
theories/Cast_Props.v
theories/At_Model.v
theories/At_Spec.v
theories/At_Props.v
theories/Log_Model.v
theories/Log_Spec.v
theories/Log_Props.v
theories/Xr_Model.v
theories/Xr_Props.v
theories/Acc_Model.v
theories/Acc_Spec.v
theories/Acc_Props.v
theories/Sct_Model.v
theories/Sct_Spec.v
theories/Sct_Proofs.v
theories/Sct_Props.v
theories/Xn_Model.v
theories/Xn_Spec.v
theories/Xn_Proofs.v
theories/Xn_Props.v
theories/Jv_Model.v
theories/Jv_Spec.v
theories/Jv_Proofs.v
theories/Jv_Props.v
theories/Vi_Model.v
theories/Vi_Spec.v
theories/Vi_Proofs.v
theories/Vi_Props.v
theories/Ru_Model.v
theories/Ru_Spec.v
theories/Ru_Proofs.v
theories/Ru_Props.v
theories/Lf_Model.v
theories/Lf_Spec.v
theories/Lf_Proofs.v
theories/Lf_Props.v
theories/Sr_Model.v
theories/Sr_Spec.v
theories/Sr_Props.v
theories/Xs_Model.v
theories/Xs_Spec.v
theories/Xs_Props.v
theories/Fc_Model.v
theories/Fc_Spec.v
theories/Fc_Props.v
theories/Ap_Model.v
theories/Ap_Spec.v
theories/Ap_Props.v
theories/Ms_Model.v
theories/Ms_Spec.v
theories/Ms_Props.v
theories/Qn_Model.v
theories/Qn_Spec.v
theories/Qn_Props.v
theories/Cli_Model.v
theories/Cli_Spec.v
theories/Cli_Props.v
theories/Nl_Model.v
theories/Nl_Spec.v
theories/Nl_Props.v
theories/Rs_Model.v
theories/Rs_Spec.v
theories/Rs_Props.v
theories/Ix_Model.v
theories/Ix_Spec.v
theories/Ix_Proofs.v
theories/Ix_Props.v
theories/Lc_Model.v
theories/Lc_Props.v
theories/Fr_Model.v
theories/Fr_Props.v
theories/Rd_Model.v
theories/Rd_Props.v
