(** Hubs from DNS: tools/ndn-autoconfig/dns-srv.cpp and guess-from-identity-name.cpp. The answer is in a buffer of 512 octets; the library functions that read names in it are parameters.
    Not modelled: the query itself. *)
From Coq Require Import String.
From stdpp Require Import list strings.
From Verif Require Import Lib.
Open Scope list_scope.

Definition PACKETSZ : nat := 512.
Definition HFIXEDSZ : nat := 12.
Definition QFIXEDSZ : nat := 4.
(** sizeof(rechdr): ten octets, aligned to four *)
Definition RECHDR : nat := 12.
Inductive outcome := OHub (host : string) (port : N) | OError.
Section dns.
(** dn_skipname, dn_expand: the message, the size of the message, where the name begins; its length there, or None (-1) *)
Context (skipname : list N -> Z -> nat -> option nat) (expand : list N -> Z -> nat -> option (string * nat)).
(** two octets, in network order; None: not in the buffer, which is undefined behaviour *)
Definition be16 (buf : list N) (i : nat) : option N :=
  match buf !! i, buf !! S i with Some a, Some b => Some (256 * a + b)%N | _, _ => None end.
(** dns-srv.cpp:58-114 parseSrvRr; ancount :80-83, the question :85-86, the owner :88-97, the port :99-100, the target :102-111 *)
Definition parse_srv (buf : list N) (size : Z) : option outcome :=
  match be16 buf 6 with
  | None => None
  | Some 0%N => Some OError
  | Some _ =>
      let b := match skipname buf size HFIXEDSZ with Some n => HFIXEDSZ + n + QFIXEDSZ | None => HFIXEDSZ + QFIXEDSZ - 1 end in
      match expand buf size b with
      | None => Some OError
      | Some (_, n) =>
          match be16 buf (b + RECHDR + 4) with
          | None => None
          | Some port =>
              match expand buf size (b + n + HFIXEDSZ + QFIXEDSZ) with
              | None => Some OError
              | Some (host, _) => Some (OHub host port)
              end
          end
      end
  end.
(** dns-srv.cpp:116-138 querySrvRr and :143-167 querySrvRrSearch, after the query: the size is 0, or -1 if the query fails; the buffer is then what was there before *)
Definition query_srv (buf : list N) (size : Z) : option outcome := if (size =? 0)%Z then Some OError else parse_srv buf size.
End dns.
(** guess-from-identity-name.cpp:42-56 and dns-srv.cpp:119: the name that is asked for, from the URIs of the components *)
Fixpoint server_name (rev_comps : list string) : string := match rev_comps with [] => "_homehub._autoconf.named-data.net" | c :: l => String.append c (String.append "." (server_name l)) end.
Definition srv_domain (comps : list string) : string := String.append "_ndn._udp." (server_name (rev comps)).
