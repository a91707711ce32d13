(** Specification vocabulary for several migrations at the same time. *)
From Verif Require Import Base Text Types Changes Sql History SpecHistory Dbh Concurrent.
From stdpp Require Import sorting.

(** The versions of a project from init on, each following the one before. *)
Definition timeline (vs : list version) : Prop :=
  linked None (new_init :: vs) /\ NoDup (v_name <$> new_init :: vs) /\ L "stage" ∉ v_name <$> vs.
(** The directory has versions of the project, perhaps not all, and perhaps a stage. *)
Definition on_timeline (vs : list version) (d : hdir) : Prop :=
  well_named d /\ plain_dir d /\
  forall n v, stored d n v -> n <> L "stage" -> v ∈ new_init :: vs.

(** What may happen: commands are started with directories of the project, and [up] is not
    given the stage; apart from that, anything. *)
Definition sane (vs : list version) (e : event) : Prop :=
  match e with
  | Start _ (Up _ d version) => on_timeline vs d /\ version <> Some (L "stage")
  | _ => True
  end.
(** No [down] is started. *)
Definition upward (e : event) : Prop :=
  match e with Start _ (Down _) => False | _ => True end.
(** No [up] is started. *)
Definition downward (e : event) : Prop :=
  match e with Start _ (Up _ _ _) => False | _ => True end.
(** Something that command [i] does. *)
Definition own (i : nat) (e : event) : Prop :=
  match e with Start _ _ => False | Step j | Fails j | Kill j => j = i end.

(** Nothing goes on, and nothing went on before. *)
Definition idle (s : server) : Prop :=
  s_running s = ∅ /\ s_trace s = [] /\ s_committed s = [] /\ s_ended s = ∅.
(** The table records init and the first [n] versions. *)
Definition records (vs : list version) (n : nat) (t : vtable) : Prop :=
  n <= length vs /\ r_version <$> t_rows t = new_init :: take n vs.
(** The numbers of the rows increase, and the next one is larger. *)
Definition numbered_up (t : vtable) : Prop :=
  StronglySorted Z.lt (r_order <$> t_rows t) /\ Forall (fun o => o < t_next t)%Z (r_order <$> t_rows t).
(** A database that has not been initialised, or is at version [n]. *)
Definition begins (vs : list version) (n : nat) (o : option (option vtable)) : Prop :=
  (o = None /\ n = 0) \/ exists t, o = Some (Some t) /\ records vs n t /\ numbered_up t.

(** The statements of scripts that took effect: those executed in transactions that
    have been committed, in the order of execution. *)
Definition in_effect (s : server) : list str :=
  snd <$> filter (fun e => e.1 ∈ s_committed s) (s_trace s).
