(** Hub discovery: tools/ndn-autoconfig/procedure.cpp, stage.cpp, multicast-discovery.cpp and the daemon of main.cpp.
    The environment answers requests (management commands, datasets, the hub Data, canonization of a FaceUri) in any order and at any time; the three stages that do not wait (search domains, NDN-FCH, identity name) are their outcomes.
    Not modelled: DNS and HTTP, the options, the texts of messages, signals. *)
From stdpp Require Import list.
From Verif Require Import Lib.
Open Scope list_scope.

Section autoconfig.
Context {U : Type}.   (* FaceUris *)
(** requests that wait for an answer *)
Inductive req :=
| RDataset                    (* the multi-access faces *)
| RHubReg (face : N)          (* the discovery prefix /localhop/ndn-autoconf/hub on this face: cost 1, 30 seconds *)
| RStrategy                   (* the multicast strategy for the discovery prefix *)
| RHubData                    (* the Interest for the hub *)
| RCanonize (u : U)
| RCreate (u : U)             (* faces/create *)
| RPrefix (face : N) (i : nat). (* HUB_PREFIXES[i]: origin autoconf, cost 100 *)
Inductive reply :=
| YOk                         (* a command succeeded *)
| YFaces (l : list N)
| YHub (u : U)                (* a Data with a Uri element that is a FaceUri *)
| YUri (u : U)                (* canonized *)
| YFace (face : N)            (* faces/create succeeded, or 409: the face exists *)
| YThrows                     (* Content or the body of 409 cannot be parsed: the exception *)
| YFail.                      (* anything else: error, Nack, timeout, Data without a Uri or with a bad one *)
(** a stage that does not wait: a FaceUri, a failure that it catches, an exception that it does not (KeyChain without default identity).
    NdnFchDiscovery catches runtime errors also of the stage it starts if the hub's name is no FaceUri; then it fails again and that stage, which is in progress, throws again: the exception is the same (ndn-fch-discovery.cpp:140-197) *)
Inductive sout := SUri (u : U) | SFail | SThrows.
Record ac := Ac { a_busy : list bool; a_pending : list req; a_hist : list (req * reply); a_done : list bool; a_regs : nat; a_ok : nat; a_bad : nat }.
Definition ac_init : ac := Ac [false; false; false; false] [] [] [] 0 0 0.
Definition is_busy (k : nat) (s : ac) : bool := default false (a_busy s !! k).
Definition set_busy (k : nat) (b : bool) (s : ac) : ac := Ac (<[k := b]> (a_busy s)) (a_pending s) (a_hist s) (a_done s) (a_regs s) (a_ok s) (a_bad s).
Definition issue (r : req) (s : ac) : ac := Ac (a_busy s) (a_pending s ++ [r]) (a_hist s) (a_done s) (a_regs s) (a_ok s) (a_bad s).
Definition complete (b : bool) (s : ac) : ac := Ac (a_busy s) (a_pending s) (a_hist s) (a_done s ++ [b]) (a_regs s) (a_ok s) (a_bad s).
Definition set_regs (n ok bad : nat) (s : ac) : ac := Ac (a_busy s) (a_pending s) (a_hist s) (a_done s) n ok bad.
(** stage.cpp:30-40, 54-70 and procedure.cpp:52-69: the stages from the k-th on; the next is started before the stage is over.  None: the exception, which ends the program *)
Fixpoint start_sync (o : list sout) (k : nat) (s : ac) : option ac :=
  match o with
  | [] => Some (complete false s)
  | x :: o' =>
      if is_busy k s then None
      else let s1 := set_busy k true s in
           match x with
           | SUri u => Some (set_busy k false (issue (RCanonize u) s1))
           | SFail => match start_sync o' (S k) s1 with Some s2 => Some (set_busy k false s2) | None => None end
           | SThrows => None
           end
  end.
Definition mc_fail (o : list sout) (s : ac) : option ac := match start_sync o 1 s with Some s1 => Some (set_busy 0 false s1) | None => None end.
Definition mc_succeed (u : U) (s : ac) : ac := set_busy 0 false (issue (RCanonize u) s).
(** procedure.cpp:80-85 runOnce, multicast-discovery.cpp:49-61 *)
Definition run_once (s : ac) : option ac := if is_busy 0 s then None else Some (issue RDataset (set_busy 0 true s)).
(** multicast-discovery.cpp:98-110 afterReg *)
Definition after_reg (o : list sout) (s : ac) : option ac :=
  if (a_ok s + a_bad s <? a_regs s)%nat then Some s
  else if (0 <? a_ok s)%nat then Some (issue RStrategy s) else mc_fail o s.
(** procedure.cpp:117-139 registerPrefixes *)
Definition HUB_PREFIXES : nat := 2.
Definition register_prefixes (face : N) (i : nat) (s : ac) : ac := if (HUB_PREFIXES <=? i)%nat then complete true s else issue (RPrefix face i) s.
(** the answer to a request; multicast-discovery.cpp:63-153, procedure.cpp:87-139 *)
Definition answer (o : list sout) (r : req) (y : reply) (s : ac) : option ac :=
  match r with
  | RDataset => match y with
                | YFaces [] => mc_fail o s
                | YFaces l => Some (foldl (fun s f => issue (RHubReg f) s) (set_regs (length l) 0 0 s) l)
                | _ => mc_fail o s
                end
  | RHubReg _ => match y with YOk => after_reg o (set_regs (a_regs s) (S (a_ok s)) (a_bad s) s) | _ => after_reg o (set_regs (a_regs s) (a_ok s) (S (a_bad s)) s) end
  | RStrategy => match y with YOk => Some (issue RHubData s) | _ => mc_fail o s end
  | RHubData => match y with YHub u => Some (mc_succeed u s) | YThrows => None | _ => mc_fail o s end
  | RCanonize _ => match y with YUri u => Some (issue (RCreate u) s) | _ => Some (complete false s) end
  | RCreate _ => match y with YFace f => Some (register_prefixes f 0 s) | YThrows => None | _ => Some (complete false s) end
  | RPrefix f i => match y with YOk => Some (register_prefixes f (S i) s) | _ => Some (complete false s) end
  end.
(** the i-th pending request is answered; an answer of another kind counts as a failure *)
Definition ac_step (i : nat) (y : reply) (o : list sout) (s : ac) : option ac :=
  match a_pending s !! i with
  | None => Some s
  | Some r => answer o r y (Ac (a_busy s) (delete i (a_pending s)) (a_hist s ++ [(r, y)]) (a_done s) (a_regs s) (a_ok s) (a_bad s))
  end.
Fixpoint ac_steps (l : list (nat * reply * list sout)) (s : ac) : option ac :=
  match l with [] => Some s | (i, y, o) :: l' => match ac_step i y o s with Some s' => ac_steps l' s' | None => None end end.
(** main.cpp:168-182: once; the exit code, if the program ends: nothing is pending any more, or an exception *)
Definition exit_code (s : option ac) : option N :=
  match s with
  | None => Some 1%N
  | Some s => match a_pending s with [] => Some (match last (a_done s) with Some false => 1%N | _ => 0%N end) | _ => None end
  end.

(** * The daemon, main.cpp:56-97; times in milliseconds; one rerun at most is scheduled, a new one replaces it *)
Record dm := Dm { m_ac : ac; m_next : option Z }.
Definition dm_init (now : Z) : dm := Dm ac_init (Some (now + 100)%Z).
Inductive dm_event := DTimer | DNetwork | DReply (i : nat) (y : reply) (o : list sout).
Definition dm_step (now : Z) (e : dm_event) (d : dm) : option dm :=
  match e with
  | DTimer => match m_next d with
              | Some t => if (t <=? now)%Z then match run_once (m_ac d) with Some s => Some (Dm s None) | None => None end else Some d
              | None => Some d
              end
  | DNetwork => Some (Dm (m_ac d) (Some (now + 5000)%Z))
  | DReply i y o =>
      match ac_step i y o (m_ac d) with
      | Some s => Some (Dm s (if (length (a_done (m_ac d)) <? length (a_done s))%nat then Some (now + 3600000)%Z else m_next d))
      | None => None
      end
  end.
Fixpoint dm_steps (l : list (Z * dm_event)) (d : dm) : option dm :=
  match l with [] => Some d | (now, e) :: l' => match dm_step now e d with Some d' => dm_steps l' d' | None => None end end.
End autoconfig.
Arguments req : clear implicits. Arguments reply : clear implicits. Arguments sout : clear implicits. Arguments ac : clear implicits. Arguments dm : clear implicits. Arguments dm_event : clear implicits.
