(** Privileges of the daemon: daemon/common/privilege-helper.cpp, privilege-helper.hpp:69-83 and the general section, daemon/mgmt/general-config-section.cpp. Platforms with NFD_HAVE_PRIVILEGE_DROP_AND_ELEVATE.
    Not modelled: the buffers for the lookups of users and groups, which are functions here; other threads and the network. *)
From Coq Require Import String.
From stdpp Require Import list.
From Verif Require Import Lib.
Open Scope list_scope.

(** what the system keeps: real, effective and saved ids, supplementary groups *)
Record creds := Creds { c_ruid : N; c_euid : N; c_suid : N; c_rgid : N; c_egid : N; c_sgid : N; c_groups : list N }.
(** seteuid(2), setegid(2): permitted to the superuser, and for the real and saved id; None: EPERM *)
Definition seteuid (u : N) (c : creds) : option creds :=
  if (c_euid c =? 0)%N || (u =? c_ruid c)%N || (u =? c_suid c)%N then Some (Creds (c_ruid c) u (c_suid c) (c_rgid c) (c_egid c) (c_sgid c) (c_groups c)) else None.
Definition setegid (g : N) (c : creds) : option creds :=
  if (c_euid c =? 0)%N || (g =? c_rgid c)%N || (g =? c_sgid c)%N then Some (Creds (c_ruid c) (c_euid c) (c_suid c) (c_rgid c) g (c_sgid c) (c_groups c)) else None.
(** privilege-helper.cpp:36-41: s_normalUid and the others *)
Record priv := Priv { p_c : creds; p_nuid : N; p_ngid : N; p_puid : N; p_pgid : N }.
Definition priv_init (c : creds) : priv := Priv c (c_euid c) (c_egid c) (c_euid c) (c_egid c).
(** the outcome of a call: [inl]: it returns; [inr]: an exception, with the state that it leaves *)
Definition result := (priv + priv)%type.
Definition with_c (p : priv) (c : creds) : priv := Priv c (p_nuid p) (p_ngid p) (p_puid p) (p_pgid p).

Section lookup.
Context (user_id group_id : string -> option N).   (* getpwnam_r, getgrnam_r *)
(** :44-112 initialize *)
Definition initialize (user group : string) (p : priv) : result :=
  match (if String.eqb group "" then Some (p_ngid p) else group_id group) with
  | None => inr p
  | Some g =>
      let p1 := Priv (p_c p) (p_nuid p) g (p_puid p) (p_pgid p) in
      match (if String.eqb user "" then Some (p_nuid p) else user_id user) with
      | None => inr p1
      | Some u => inl (Priv (p_c p) u g (p_puid p) (p_pgid p))
      end
  end.
(** general-config-section.cpp:32-68, for a dry run and otherwise alike; None: ConfigFile::Error. The last user and the last group count *)
Fixpoint general_read (l : list (string * string)) (user group : string) : option (string * string) :=
  match l with
  | [] => Some (user, group)
  | (k, v) :: l' =>
      if String.eqb k "user" then if String.eqb v "" then None else general_read l' v group
      else if String.eqb k "group" then if String.eqb v "" then None else general_read l' user v
      else general_read l' user group
  end.
Definition on_config (l : list (string * string)) (p : priv) : option result :=
  match general_read l "" "" with Some (u, g) => Some (initialize u g p) | None => None end.
End lookup.
(** :114-132 drop *)
Definition drop_priv (p : priv) : result :=
  if (c_euid (p_c p) =? p_nuid p)%N && (c_egid (p_c p) =? p_ngid p)%N then inl p
  else match setegid (p_ngid p) (p_c p) with
       | None => inr p
       | Some c => match seteuid (p_nuid p) c with None => inr (with_c p c) | Some c2 => inl (with_c p c2) end
       end.
(** :134-152 raise *)
Definition raise_priv (p : priv) : result :=
  if (c_euid (p_c p) =? p_puid p)%N && (c_egid (p_c p) =? p_pgid p)%N then inl p
  else match seteuid (p_puid p) (p_c p) with
       | None => inr p
       | Some c => match setegid (p_pgid p) c with None => inr (with_c p c) | Some c2 => inl (with_c p c2) end
       end.
(** privilege-helper.hpp:69-83 runElevated: a function that leaves the privileges as they are, and returns or throws; the first component: the credentials with which it ran, if it did *)
Definition run_elevated (throws : bool) (p : priv) : option creds * result :=
  match raise_priv p with
  | inr q => (None, inr q)
  | inl p1 => (Some (p_c p1), match drop_priv p1 with inr q => inr q | inl p2 => if throws then inr p2 else inl p2 end)
  end.
