(** The two threads of the daemon: daemon/main.cpp:104-180 NfdRunner::run, terminate. A step is what a thread does between two points at which the other can be noticed; the steps of both interleave.
    Not modelled: what the threads do while they run, reloading, systemd. *)
From stdpp Require Import list.
From Verif Require Import Lib.
Open Scope list_scope.

(** the RIB thread, :122-147 *)
Inductive rpc :=
| RStart      (* not running yet *)
| RInit       (* ribIo is assigned, the service is being constructed *)
| RRun        (* running its io_context *)
| RCaught     (* an exception was caught *)
| RStopMain   (* retval is assigned *)
| RClear      (* about to reset ribIo *)
| REnd.
(** the main thread, :149-179 *)
Inductive mpc :=
| MWait       (* waits for ribIo *)
| MRun        (* running its io_context *)
| MStopRib    (* its io_context has returned *)
| MJoin
| MExit.
(** [t_io]: ribIo is not null; [t_mstop], [t_rstop]: the io_context is stopped; [t_fails]: the exceptions, each with the exit code that it stands for *)
Record st := St { t_r : rpc; t_m : mpc; t_io : bool; t_ret : N; t_mstop : bool; t_rstop : bool; t_fails : list N }.
Definition th_init : st := St RStart MWait false 0 false false [].
Inductive th_event :=
| EvAssign              (* RIB: :123-129 *)
| EvReady (ok : bool)   (* RIB: :131-135, the service is constructed or throws *)
| EvRibThrow            (* RIB: an exception in a handler *)
| EvRibReturn           (* RIB: run() returns, as the io_context is stopped *)
| EvRibRetval           (* RIB: :137-139 *)
| EvRibStopMain         (* RIB: :140 *)
| EvRibClear            (* RIB: :143-146 *)
| EvWoken               (* main: :149-154 *)
| EvSignal              (* main: :191-201 SIGINT, SIGTERM *)
| EvMainReturn          (* main: :158 run() returns *)
| EvMainThrow (priv : bool)  (* main: :160-167 *)
| EvStopRib             (* main: :169-176 *)
| EvJoin.               (* main: :177-179 *)
Definition th_step (e : th_event) (s : st) : option st :=
  match e, s with
  | EvAssign, St RStart m _ ret ms rs fs => Some (St RInit m true ret ms rs fs)
  | EvReady true, St RInit m io ret ms rs fs => Some (St RRun m io ret ms rs fs)
  | EvReady false, St RInit m io ret ms rs fs => Some (St RCaught m io ret ms rs (fs ++ [1%N]))
  | EvRibThrow, St RRun m io ret ms rs fs => Some (St RCaught m io ret ms rs (fs ++ [1%N]))
  | EvRibReturn, St RRun m io ret ms true fs => Some (St RClear m io ret ms true fs)
  | EvRibRetval, St RCaught m io _ ms rs fs => Some (St RStopMain m io 1 ms rs fs)
  | EvRibStopMain, St RStopMain m io ret _ rs fs => Some (St RClear m io ret true rs fs)
  | EvRibClear, St RClear m _ ret ms rs fs => Some (St REnd m false ret ms rs fs)
  | EvWoken, St r MWait true ret ms rs fs => Some (St r MRun true ret ms rs fs)
  | EvSignal, St r MRun io ret _ rs fs => Some (St r MRun io ret true rs fs)
  | EvMainReturn, St r MRun io ret true rs fs => Some (St r MStopRib io ret true rs fs)
  | EvMainThrow priv, St r MRun io _ ms rs fs => let c := if priv then 4%N else 1%N in Some (St r MStopRib io c ms rs (fs ++ [c]))
  | EvStopRib, St r MStopRib io ret ms rs fs => Some (St r MJoin false ret ms (io || rs) fs)
  | EvJoin, St REnd MJoin io ret ms rs fs => Some (St REnd MExit io ret ms rs fs)
  | _, _ => None
  end.
Fixpoint th_steps (l : list th_event) (s : st) : option st :=
  match l with [] => Some s | e :: l' => match th_step e s with Some s' => th_steps l' s' | None => None end end.
