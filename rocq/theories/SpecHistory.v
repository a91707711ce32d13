(** Specification vocabulary for histories. *)
From Verif Require Import Base Text Types Changes SpecSnapshot Sql History.

(** ** Directories *)

(** The directory has a version under this name. *)
Definition stored (d : hdir) (n : str) (v : version) : Prop :=
  47%N ∉ n /\ d !! (n ++ L ".yaml") = Some (Document v).
(** Every version is stored under its own name. *)
Definition well_named (d : hdir) : Prop := forall n v, stored d n v -> v_name v = n.
(** Names from which the suffix of the file can be told. *)
Definition plain_name (n : str) : Prop := 47%N ∉ n /\ ~ exists m, n = m ++ L ".yaml".

(** From version [a], the versions [ns] come one after the other, up to [b]. *)
Inductive path (d : hdir) (a : str) : list str -> str -> Prop :=
  | path_here v : stored d a v -> path d a [] a
  | path_step ns b c v : path d a ns b -> stored d c v -> v_previous v = Some b ->
      path d a (ns ++ [c]) c.
(** Going back from [b], one meets [c] again and again, and never [a]. *)
Definition circles (d : hdir) (a b : str) : Prop :=
  exists c ns ns', ns' <> [] /\ path d c ns b /\ path d c ns' c /\ a ∉ ns /\ a ∉ ns' /\ a <> c.

(** The files of a directory that count as versions. *)
Definition version_entry (d : hdir) (f : str) : Prop :=
  (exists s, f = s ++ L ".yaml") /\ exists e, d !! f = Some e /\ e <> Folder.

(** All version files have plain names. *)
Definition plain_dir (d : hdir) : Prop :=
  forall f, version_entry d f -> exists n, plain_name n /\ f = n ++ L ".yaml".
(** Version [b] is recorded as the one after [a]. *)
Definition follows (d : hdir) (a b : str) : Prop :=
  exists n v, stored d n v /\ v_previous v = Some a /\ v_name v = b.
(** Two version files name the same predecessor. *)
Definition branches (d : hdir) : Prop :=
  exists n n' v v' p, n <> n' /\ stored d n v /\ stored d n' v' /\
    v_previous v = Some p /\ v_previous v' = Some p.
(** The last version from init on that has a follower; init if there is none. *)
Definition is_current (d : hdir) (c : str) : Prop :=
  rtc (follows d) (L "init") c /\
  ((exists b, follows d c b /\ forall x, ~ follows d b x) \/
   (c = L "init" /\ forall x, ~ follows d c x)).

(** ** Histories as the commands leave them *)

(** Each version follows the one before it. *)
Fixpoint linked (previous : option str) (vs : list version) : Prop :=
  match vs with
  | [] => True
  | v :: vs => v_previous v = previous /\ linked (Some (v_name v)) vs
  end.
(** The changes of the versions, one after the other. *)
Definition all_changes (vs : list version) : list change := vs ≫= v_changes.
(** The statements of a version: those of its changes, in order; and those of their
    reverts, in reverse order. *)
Definition scripts_match (db : database) (v : version) : Prop :=
  exists rs, collect_reverts (v_changes v) db = Some rs /\
    v_up v = render_sql <$> v_changes v /\ v_down v = reverse (render_sql <$> rs).
(** Replaying the versions one after the other from [db] ends in [db']. *)
Inductive replays : database -> list version -> database -> Prop :=
  | replays_nil db : replays db [] db
  | replays_cons db v vs db1 db' :
      apply_all (v_changes v) db = (db1, Ok ()) -> replays db1 vs db' -> replays db (v :: vs) db'.
(** All versions have the right statements. *)
Inductive scripted : database -> list version -> Prop :=
  | scripted_nil db : scripted db []
  | scripted_cons db v vs db1 :
      apply_all (v_changes v) db = (db1, Ok ()) -> scripts_match db v -> scripted db1 vs ->
      scripted db (v :: vs).

(** The directory holds exactly these versions. *)
Definition holds (d : hdir) (vs : list version) : Prop :=
  NoDup (v_name <$> vs) /\ Forall (fun v => plain_name (v_name v)) vs /\
  forall f e, d !! f = Some e <-> exists v, v ∈ vs /\ f = v_name v ++ L ".yaml" /\ e = Document v.

(** One chain from init through the made versions to the stage; everything can be
    replayed, and the statements of all versions but init are those of their changes. *)
Definition linear (d : hdir) (made : list version) (st : version) : Prop :=
  holds d ((new_init :: made) ++ [st]) /\ linked None ((new_init :: made) ++ [st]) /\
  v_name st = L "stage" /\
  exists db0, apply_all (v_changes new_init) database_new = (db0, Ok ()) /\
    scripted db0 (made ++ [st]).

(** ** Reachable directories *)

(** One command, whatever the listing, the hash orders and the definitions are, and
    whether it succeeds or not; only a kill is excluded, and [make] gets a new name. *)
Inductive command : hdir -> hdir -> Prop :=
  | command_stage l os ot definitions k d r k' d' :
      stage l os ot definitions (k, d) = (r, (k', d')) -> r <> Killed -> command d d'
  | command_reset l k d r k' d' :
      reset l (k, d) = (r, (k', d')) -> r <> Killed -> command d d'
  | command_make l now name k d r k' d' :
      d !! (made_name now name ++ L ".yaml") = None -> plain_name (made_name now name) ->
      make l now name (k, d) = (r, (k', d')) -> r <> Killed -> command d d'.
Inductive reachable : hdir -> Prop :=
  | reachable_init k k' d : init_history (k, ∅) = (Ret (), (k', d)) -> reachable d
  | reachable_command d d' : reachable d -> command d d' -> reachable d'.

(** A command killed between two file operations. *)
Inductive interrupted : hdir -> hdir -> Prop :=
  | interrupted_stage l os ot definitions k d k' d' : definitions <> Killed ->
      stage l os ot definitions (k, d) = (Killed, (k', d')) -> interrupted d d'
  | interrupted_reset l k d k' d' : reset l (k, d) = (Killed, (k', d')) -> interrupted d d'
  | interrupted_make l now name k d k' d' :
      d !! (made_name now name ++ L ".yaml") = None -> plain_name (made_name now name) ->
      make l now name (k, d) = (Killed, (k', d')) -> interrupted d d'.

(** [made_in ns d]: the directory is reached by commands during which the version files
    [ns] appeared, in this order. *)
Inductive made_in : list str -> hdir -> Prop :=
  | made_in_init k k' d : init_history (k, ∅) = (Ret (), (k', d)) -> made_in [] d
  | made_in_same ns d d' : made_in ns d -> command d d' ->
      (forall f, is_Some (d' !! f) <-> is_Some (d !! f)) -> made_in ns d'
  | made_in_new ns n d d' : made_in ns d -> command d d' ->
      (forall f, is_Some (d' !! f) <-> f = n ++ L ".yaml" \/ is_Some (d !! f)) ->
      d !! (n ++ L ".yaml") = None -> made_in (ns ++ [n]) d'.

(** The clock: date and time are written with fifteen characters. *)
Definition timestamp (now : str) : Prop := length now = 15 /\ 47%N ∉ now.
