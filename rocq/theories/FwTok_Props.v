(** C27, PIT tokens towards upstreams: a token belongs to the hop to the downstream (NDNLPv2), so strategies remove it from what they send; an Interest that names its next hop is sent with it. *)
From stdpp Require Import gmap.
From Verif Require Import Lib Name_Model Packet_Model Nt_Model Nt_Spec Tree_Model Tab_Model Tab_Spec Tab_At Tab_Pit Fw_Model Fw_Spec Fw_Inv Fw_Case Fw_Case2 Fw_Case3 Fw_Hist Fw_Acc Fw_Step Fw_Out Fw_Main Fw_Data Fw_Ex Fib_Props FwData_Props.
From Verif Require Cs_Model Cs_Spec Dnl_Model.
Definition hop_to (g : N) (i : interest) : interest := Interest (i_name i) (i_cbp i) (i_mbf i) (i_nonce i) (i_lifetime i) (i_hop i) (i_hint i) (Some g) (i_token i) (i_nondisc i).
Definition sent_tokens (l : list io) : list (N * option N) := omap (fun x => match x with Tx_interest g i => Some (g, i_token i) | _ => None end) l.
Theorem C27_token_upstream_refuted :
  ex_holds (ex_faces ++ [EvFibAdd [gc 1] 258 0; EvInterest 256 (tokened 7 (ex_interest ex_n 1))]) (fun s => bool_decide (sent_tokens (fw_log s) = [(258, None)]%N)) = true /\
  ex_holds (ex_faces ++ [EvFibAdd [gc 1] 258 0; EvInterest 256 (hop_to 258 (tokened 7 (ex_interest ex_n 1)))]) (fun s => bool_decide (sent_tokens (fw_log s) = [(258, Some 7)]%N)) = true.
Proof. by vm_compute. Qed.
Print Assumptions C27_token_upstream_refuted.
