-Q theories Verif
theories/Ac_Model.v
theories/Ac_Proof.v
theories/Ac_Props.v
theories/Ac_Spec.v
theories/Acc_Model.v
theories/Acc_Props.v
theories/Acc_Run.v
theories/Acc_Spec.v
theories/Ag_Model.v
theories/Ag_Props.v
theories/Ag_Spec.v
theories/AsfFw_Props.v
theories/Asf_Exp.v
theories/Asf_Fw.v
theories/Asf_Hist.v
theories/Asf_Meas.v
theories/Asf_Model.v
theories/Asf_Props.v
theories/Asf_Rank.v
theories/Asf_Spec.v
theories/Auth_Model.v
theories/Auth_Props.v
theories/Auth_Spec.v
theories/Cfg_Model.v
theories/Cfg_Props.v
theories/Cfg_Spec.v
theories/Ch_Model.v
theories/Ch_Props.v
theories/Cs_Find.v
theories/Cs_Lru.v
theories/Cs_Main.v
theories/Cs_Model.v
theories/Cs_Proof.v
theories/Cs_Props.v
theories/Cs_Refine.v
theories/Cs_Run.v
theories/Cs_Spec.v
theories/Dnl_Model.v
theories/Dnl_Proof.v
theories/Dnl_Props.v
theories/Dnl_Spec.v
theories/Ds_Model.v
theories/Ds_Props.v
theories/Ec_Model.v
theories/Ec_Proof.v
theories/Ec_Props.v
theories/Ec_Spec.v
theories/Et_Model.v
theories/Et_Proof.v
theories/Et_Props.v
theories/Et_Spec.v
theories/Fib_Props.v
theories/Fm_Model.v
theories/Fm_Props.v
theories/Fm_Spec.v
theories/Fs_Hist.v
theories/Fs_Model.v
theories/Fs_Proof.v
theories/Fs_Props.v
theories/Fs_Read.v
theories/Fs_Reload.v
theories/Fs_Run.v
theories/Fs_Spec.v
theories/FwData_Props.v
theories/FwDead_Props.v
theories/FwFace_Props.v
theories/FwPit_Props.v
theories/FwScope_Props.v
theories/FwTok_Props.v
theories/Fw_Acc.v
theories/Fw_Calm.v
theories/Fw_Case.v
theories/Fw_Case2.v
theories/Fw_Case3.v
theories/Fw_Data.v
theories/Fw_Dead.v
theories/Fw_Ex.v
theories/Fw_Hist.v
theories/Fw_Inv.v
theories/Fw_Last.v
theories/Fw_Loop.v
theories/Fw_Main.v
theories/Fw_Model.v
theories/Fw_Out.v
theories/Fw_Spec.v
theories/Fw_Step.v
theories/Fw_Tally.v
theories/Fw_Timer.v
theories/Lg_Model.v
theories/Lg_Props.v
theories/Lib.v
theories/Lp_Frag.v
theories/Lp_Model.v
theories/Lp_Props.v
theories/Lp_Ra.v
theories/Lp_Round.v
theories/Lp_Spec.v
theories/Ls_Fit.v
theories/Ls_Model.v
theories/Ls_Proof.v
theories/Ls_Props.v
theories/Ls_Spec.v
theories/Meas_Props.v
theories/Mg_Model.v
theories/Mg_Props.v
theories/Name_Model.v
theories/Name_Proof.v
theories/Name_Spec.v
theories/Nc_Model.v
theories/Nc_Proof.v
theories/Nc_Props.v
theories/Nc_Spec.v
theories/Net_Model.v
theories/Net_Proof.v
theories/Net_Props.v
theories/Net_Spec.v
theories/Nt_Enum.v
theories/Nt_Hash.v
theories/Nt_Model.v
theories/Nt_Ops.v
theories/Nt_Props.v
theories/Nt_Run.v
theories/Nt_Spec.v
theories/Nt_Tree.v
theories/Packet_Model.v
theories/Pit_Props.v
theories/Pr_Model.v
theories/Pr_Props.v
theories/Readv_All.v
theories/Readv_Model.v
theories/Readv_Proof.v
theories/Readv_Props.v
theories/Readv_Run.v
theories/Readv_Spec.v
theories/Reg_Create.v
theories/Reg_Model.v
theories/Reg_Param.v
theories/Reg_Proof.v
theories/Reg_Props.v
theories/Reg_Spec.v
theories/Rel_Dup.v
theories/Rel_Inv.v
theories/Rel_Loss.v
theories/Rel_Model.v
theories/Rel_Props.v
theories/Rel_Spec.v
theories/Rel_Step.v
theories/Rel_Win.v
theories/RibFib_Anc.v
theories/RibFib_Inv.v
theories/RibFib_Look.v
theories/RibFib_Model.v
theories/RibFib_Props.v
theories/RibFib_Run.v
theories/RibFib_Spec.v
theories/RibFib_Trav.v
theories/RibFib_Upd.v
theories/RibQueue_Inv.v
theories/RibQueue_Model.v
theories/RibQueue_Proof.v
theories/RibQueue_Props.v
theories/RibQueue_Spec.v
theories/Rib_Hier.v
theories/Rib_Inv.v
theories/Rib_Model.v
theories/Rib_Props.v
theories/Rib_Spec.v
theories/Rib_Tree.v
theories/Rm_Model.v
theories/Rm_Proof.v
theories/Rm_Props.v
theories/Rm_Run.v
theories/Rm_Spec.v
theories/Sc_Props.v
theories/Sl_Model.v
theories/Sl_Props.v
theories/Sl_Run.v
theories/Sl_Spec.v
theories/StBest_Props.v
theories/StFw_Props.v
theories/StMulti_Props.v
theories/StRetx_Props.v
theories/St_At.v
theories/St_Best.v
theories/St_Dec.v
theories/St_Model.v
theories/St_Multi.v
theories/St_Nack.v
theories/St_Retx.v
theories/St_Run.v
theories/St_Spec.v
theories/Tab_At.v
theories/Tab_Clean.v
theories/Tab_Fib.v
theories/Tab_Main.v
theories/Tab_Meas.v
theories/Tab_Model.v
theories/Tab_Pit.v
theories/Tab_Pit2.v
theories/Tab_Run.v
theories/Tab_Sc.v
theories/Tab_Spec.v
theories/Tc_Model.v
theories/Tc_Proof.v
theories/Tc_Props.v
theories/Tc_Spec.v
theories/Th_Model.v
theories/Th_Props.v
theories/Tp_Model.v
theories/Tp_Proof.v
theories/Tp_Props.v
theories/Tp_Send.v
theories/Tp_Spec.v
theories/Tree_Model.v
theories/Tree_Proof.v
theories/Tree_Props.v
theories/Tree_Refine.v
theories/Un_Model.v
theories/Un_Props.v
theories/Ws_Model.v
theories/Ws_Proof.v
theories/Ws_Props.v
theories/Ws_Spec.v
