(** The Unix socket of the forwarder: daemon/face/unix-stream-channel.cpp. Several instances of NFD use one path; every system call is one step.
    Not modelled: the directory and the permissions of the file, the texts of errors, a connect that times out (it is treated as one that is refused). *)
From stdpp Require Import gmap.
From Verif Require Import Lib.
Open Scope list_scope.

(** what is at the path: nothing, something that is no socket, the socket with this number *)
Inductive node := NNothing | NFile (c : N) | NSocket (s : N).
(** a socket that has a process: bound or listening; a socket without one is in no state *)
Inductive sock := Bound | Listening.
(** an instance: where it is in UnixStreamChannel::listen; [PFailed]: an exception *)
Inductive phase := PIdle | PConnect | PRemove | PBind | PListen (s : N) | PServing (s : N) | PFailed.
Record world := World { w_path : node; w_socks : gmap N sock; w_next : N; w_procs : gmap N phase }.
Definition proc (p : N) (w : world) : phase := default PIdle (w_procs w !! p).
Definition set_proc (p : N) (x : phase) (w : world) : world := World (w_path w) (w_socks w) (w_next w) (<[p := x]> (w_procs w)).
Definition set_path (n : node) (w : world) : world := World n (w_socks w) (w_next w) (w_procs w).
Definition set_sock (s : N) (x : option sock) (w : world) : world := World (w_path w) (partial_alter (fun _ => x) s (w_socks w)) (w_next w) (w_procs w).
(** :61-127 listen, one system call; [perm]: the system permits it *)
Definition un_step (perm : bool) (p : N) (w : world) : world :=
  match proc p w with
  | PIdle => (* :80, 100-105 symlink_status *)
      match w_path w with NNothing => set_proc p PBind w | NFile _ => set_proc p PFailed w | NSocket _ => set_proc p PConnect w end
  | PConnect => (* :81-99; the system refuses to connect to what is no socket, too *)
      match w_path w with
      | NNothing => set_proc p PBind w
      | NFile _ => if perm then set_proc p PRemove w else set_proc p PBind w
      | NSocket s => if perm then match w_socks w !! s with Some Listening => set_proc p PFailed w | _ => set_proc p PRemove w end else set_proc p PBind w
      end
  | PRemove => if perm then set_proc p PBind (set_path NNothing w) else set_proc p PFailed w
  | PBind => (* :107-110 *)
      match w_path w with
      | NNothing => if perm then let s := w_next w in set_proc p (PListen s) (World (NSocket s) (<[s := Bound]> (w_socks w)) (s + 1)%N (w_procs w)) else set_proc p PFailed w
      | _ => set_proc p PFailed w
      end
  | PListen s => set_proc p (PServing s) (set_sock s (Some Listening) w)
  | PServing _ | PFailed => w   (* :66-69: already listening *)
  end.
(** the process ends: the system closes its socket *)
Definition un_crash (p : N) (w : world) : world :=
  match proc p w with
  | PListen s | PServing s => set_proc p PIdle (set_sock s None w)
  | _ => set_proc p PIdle w
  end.
(** :49-59 the destructor: it closes the socket, and removes what is at the path *)
Definition un_exit (p : N) (w : world) : world :=
  match proc p w with
  | PServing _ => set_path NNothing (un_crash p w)
  | _ => un_crash p w
  end.
(** a whole call of listen, without anything in between *)
Fixpoint un_steps (n : nat) (perm : bool) (p : N) (w : world) : world := match n with O => w | S n' => un_steps n' perm p (un_step perm p w) end.
Definition un_start (perm : bool) (p : N) (w : world) : world := un_steps 5 perm p w.
Inductive un_event :=
| UStep (perm : bool) (p : N)
| UStart (perm : bool) (p : N)
| UExit (p : N)
| UCrash (p : N)
| UUser (n : node).         (* somebody removes or puts a file *)
Definition un_run (e : un_event) (w : world) : world :=
  match e with
  | UStep perm p => un_step perm p w
  | UStart perm p => un_start perm p w
  | UExit p => un_exit p w
  | UCrash p => un_crash p w
  | UUser n => set_path n w
  end.
Definition un_runs (l : list un_event) (w : world) : world := foldl (fun w e => un_run e w) w l.
Definition un_init (n : node) : world := World n ∅ 0 ∅.
(** a client connects: the instance it reaches *)
Definition un_reaches (w : world) : option N := match w_path w with NSocket s => match w_socks w !! s with Some Listening => Some s | _ => None end | _ => None end.

(** * Accepting, :129-161: faces by their number *)
Record acceptor := Acceptor { u_armed : bool; u_size : Z; u_open : gset N; u_told : list N; u_errors : nat }.
Inductive acc_event := ConnOk (f : N) | ConnError (aborted : bool) | FaceClosed (f : N).
Definition acc_step (e : acc_event) (a : acceptor) : acceptor :=
  match e with
  | ConnOk f => if u_armed a then Acceptor true (u_size a + 1) ({[f]} ∪ u_open a) (u_told a ++ [f]) (u_errors a) else a
  | ConnError aborted => if u_armed a then Acceptor false (u_size a) (u_open a) (u_told a) (if aborted then u_errors a else S (u_errors a)) else a
  | FaceClosed f => if decide (f ∈ u_open a) then Acceptor (u_armed a) (u_size a - 1) (u_open a ∖ {[f]}) (u_told a) (u_errors a) else a
  end.
Definition acc_steps (l : list acc_event) (a : acceptor) : acceptor := foldl (fun a e => acc_step e a) a l.
Definition acc_init : acceptor := Acceptor true 0 ∅ [] 0.
