(** What an answer, a row or a notification has to say about a face, and what a history of notifications says. *)
From Coq Require Import String.
From stdpp Require Import gmap strings.
From Verif Require Import Lib Fm_Model.
Open Scope string_scope.
Open Scope list_scope.

(** the MTU that management shows: the least of the MTU of the transport, if it has one, of the override, if the link service has
    one, and of the greatest packet *)
Definition mtu_is (fc : mface) (m : Z) : Prop :=
  (m <= 8800 /\ (mf_tmtu fc = -1 \/ m <= mf_tmtu fc) /\ (forall o, mf_svc fc = Some o -> mf_tmtu fc <> -1 -> m <= o_mtu o) /\
   (m = 8800 \/ m = mf_tmtu fc \/ exists o, mf_svc fc = Some o /\ mf_tmtu fc <> -1 /\ m = o_mtu o))%Z.
(** sizes are sensible: an MTU is unlimited or not negative, an override is not negative *)
Definition sized (fc : mface) : Prop := (-1 <= mf_tmtu fc)%Z /\ forall o, mf_svc fc = Some o -> (0 <= o_mtu o)%Z.

(** the answer describes that face *)
Definition describes (with_uris : bool) (b : body) (id : N) (fc : mface) : Prop :=
  b_face b = Some id /\
  b_uri b = (if with_uris then Some (u_text (mf_remote fc)) else None) /\
  b_local_uri b = (if with_uris then Some (u_text (mf_local fc)) else None) /\
  b_persist b = Some (mf_persist fc) /\
  (sized fc -> exists m, b_mtu b = Some m /\ mtu_is fc (Z.of_N m)) /\
  match mf_svc fc with
  | None => b_interval b = None /\ b_threshold b = None /\ b_lf b = None /\ b_rel b = None /\ b_mark b = None
  | Some o => b_interval b = Some (o_interval o) /\ b_threshold b = Some (o_threshold o) /\
              b_lf b = Some (o_local o) /\ b_rel b = Some (o_reliable o) /\ b_mark b = Some (o_mark o)
  end.
(** a row or notification gives the properties of that face *)
Definition tells (r : properties) (id : N) (fc : mface) : Prop :=
  r_face r = id /\ r_remote r = u_text (mf_remote fc) /\ r_local r = u_text (mf_local fc) /\ r_is_local r = mf_is_local fc /\
  r_persist r = mf_persist fc /\ r_link r = mf_link fc /\
  match mf_svc fc with None => r_flags r = None | Some o => r_flags r = Some (o_local o, o_reliable o, o_mark o) end.

(** what a query asks for *)
Definition asks {A} (f : option A) (x : A) : Prop := forall y, f = Some y -> x = y.
Definition satisfies (f : filter) (id : N) (fc : mface) : Prop :=
  asks (f_face f) id /\
  (forall t, f_scheme f = Some t -> u_scheme (mf_remote fc) = t \/ u_scheme (mf_local fc) = t) /\
  asks (f_remote f) (u_text (mf_remote fc)) /\ asks (f_local f) (u_text (mf_local fc)) /\
  asks (f_is_local f) (mf_is_local fc) /\ asks (f_persist f) (mf_persist fc) /\ asks (f_link f) (mf_link fc).

(** ** Notifications, the last one first *)
(** the last notification about that face *)
Fixpoint last_told (id : N) (l : list (event_kind * properties)) : option event_kind :=
  match l with
  | [] => None
  | (k, r) :: l' => if (r_face r =? id)%N then Some k else last_told id l'
  end.
(** someone who only saw the notifications takes the face to exist *)
Definition believed (id : N) (l : list (event_kind * properties)) : Prop :=
  exists k, last_told id l = Some k /\ k <> EDestroyed.
(** a face is created only if it does not exist, and goes up, down or away only if it does *)
Fixpoint coherent (l : list (event_kind * properties)) : Prop :=
  match l with
  | [] => True
  | (k, r) :: l' => coherent l' /\ (k = ECreated <-> ~ believed (r_face r) l')
  end.
(** how often that face was announced *)
Fixpoint times_created (id : N) (l : list (event_kind * properties)) : nat :=
  match l with
  | [] => 0
  | (ECreated, r) :: l' => (if (r_face r =? id)%N then 1 else 0) + times_created id l'
  | _ :: l' => times_created id l'
  end.
