(** Versions and the history directory: src/history/{version,fsh,snapshot}.rs, and the
    commands that work on it: src/cmd/{init,stage,reset,make}.rs. *)
From Verif Require Import Base Text Types Changes Diff Sql.

(** ** Versions *)

(** src/history/version.rs:7-14 *)
Record version := Version {
  v_name : str; v_previous : option str; v_changes : list change;
  v_up : list str; v_down : list str }.
Global Instance version_eq_dec : EqDecision version.
Proof. solve_decision. Defined.

(** src/history/version.rs:4-5 *)
Definition STAGE : str := L "stage".
Definition INIT : str := L "init".

(** src/history/version.rs:17-28, new_init *)
Definition new_init : version :=
  Version INIT None [CreateSchema (L "public")] [L "CREATE SCHEMA public;"] [L "DROP SCHEMA public;"].
(** src/history/version.rs:30-38, new_stage *)
Definition new_stage (previous : str) : version := Version STAGE (Some previous) [] [] [].
(** src/history/version.rs:40-42, add_change *)
Definition add_change (c : change) (v : version) : version :=
  Version (v_name v) (v_previous v) (v_changes v ++ [c]) (v_up v) (v_down v).
(** src/history/version.rs:43-45, add_up *)
Definition add_up (s : str) (v : version) : version :=
  Version (v_name v) (v_previous v) (v_changes v) (v_up v ++ [s]) (v_down v).
(** src/history/version.rs:46-50, add_down *)
Definition add_down (s : str) (v : version) : version :=
  Version (v_name v) (v_previous v) (v_changes v) (v_up v) ([s] ++ v_down v).
(** src/history/version.rs:51-55, reset *)
Definition version_reset (v : version) : version := Version (v_name v) (v_previous v) [] [] [].
(** src/history/version.rs:57-59, is_empty *)
Definition is_empty (v : version) : bool :=
  bool_decide (length (v_changes v) = 0) && bool_decide (length (v_up v) = 0) &&
  bool_decide (length (v_down v) = 0).
(** src/cmd/make.rs:21: [to_make.name = ...]. *)
Definition set_name (n : str) (v : version) : version :=
  Version n (v_previous v) (v_changes v) (v_up v) (v_down v).

(** ** Outcomes *)

(** FSHistoryError (src/history/fsh.rs:116-128), with I/O and YAML errors merged into
    [FileError]; snapshot errors; loading the definitions; DBHistoryError
    (src/history/dbh.rs:216-222), with everything PostgreSQL reports merged into [DbError];
    ProjectError (src/project/mod.rs:173-178), with I/O and YAML errors merged into
    [BadConfig]. *)
Inductive herror :=
  | Branched (parent child_a child_b : str)
  | Unreachable (high low : str)
  | FileError
  | SnapshotFailed (e : snapshot_error)
  | DefinitionsFailed
  | DbError
  | NotInitialized
  | NoMatchingVersion (v : str)
  | ProjectNotFound (dir : list str)
  | ProfileNotFound (name : str)
  | BadConfig.

(** How a command ends: with a value, with [Err], by a panic, never, or because the
    process was killed. *)
Inductive exec (A : Type) :=
  | Ret (a : A)
  | Raise (e : herror)
  | Abort
  | Hang
  | Killed.
Arguments Ret {_} _.
Arguments Raise {_} _.
Arguments Abort {_}.
Arguments Hang {_}.
Arguments Killed {_}.

(** [?] *)
Definition ebind {A B} (m : exec A) (f : A -> exec B) : exec B :=
  match m with
  | Ret a => f a | Raise e => Raise e | Abort => Abort | Hang => Hang | Killed => Killed
  end.
(** [Result<_, SnapshotError>] with [?]. *)
Definition from_result {A} (r : result A) : exec A :=
  match r with Ok a => Ret a | Err e => Raise (SnapshotFailed e) end.
(** [unwrap] *)
Definition unwrap_result {A} (r : result A) : exec A :=
  match r with Ok a => Ret a | Err _ => Abort end.
Definition unwrapped {A} (m : exec A) : exec A :=
  match m with Raise _ => Abort | m => m end.

(** A command that changes a state of type [S].  The number counts the operations that
    may still happen before the process is killed. *)
Definition io (S A : Type) : Type := nat * S -> exec A * (nat * S).
Definition iret {S A} (a : A) : io S A := fun s => (Ret a, s).
Definition ibind {S A B} (m : io S A) (f : A -> io S B) : io S B :=
  fun s => match m s with
           | (Ret a, s') => f a s'
           | (Raise e, s') => (Raise e, s')
           | (Abort, s') => (Abort, s')
           | (Hang, s') => (Hang, s')
           | (Killed, s') => (Killed, s')
           end.
Notation "'do' x '<-' m ';' k" := (ibind m (fun x => k))
  (at level 200, x pattern, m at level 100, k at level 200, right associativity).
Notation "'ex' x '<-' m ';' k" := (ebind m (fun x => k))
  (at level 200, x pattern, m at level 100, k at level 200, right associativity).
(** A computation that only reads the state. *)
Definition iread {S A} (f : S -> exec A) : io S A := fun s => (f (s.2), s).
(** One operation on the outside world. *)
Definition istep {S A} (f : S -> exec A * S) : io S A :=
  fun '(k, s) => match k with
                 | 0 => (Killed, (0, s))
                 | S k => let '(r, s') := f s in (r, (k, s'))
                 end.

(** ** The history directory *)

(** A directory entry: a folder, a file that decodes to a version, or a file that does
    not (empty, partly written, or something else).  The text of files is not modelled here;
    see Serde.v.  Symbolic links and file names that are not UTF-8 are not modelled. *)
Inductive dirent :=
  | Folder
  | Document (v : version)
  | Broken.
Global Instance dirent_eq_dec : EqDecision dirent.
Proof. solve_decision. Defined.
Notation hdir := (gmap str dirent).

(** src/history/fsh.rs:110-112, get_version_file_path, the last component.  Names with a slash
    lead out of the directory; the model lets every operation on them fail. *)
Definition version_file (n : str) : str := n ++ L ".yaml".

(** src/history/fsh.rs:70-76, get_version *)
Definition get_version (d : hdir) (n : str) : exec version :=
  if decide (47%N ∈ n) then Raise FileError else
  match d !! version_file n with
  | Some (Document v) => Ret v
  | _ => Raise FileError
  end.

(** [str::trim_end_matches(".yaml")] on the reversed string: the suffix is removed as
    often as it occurs. *)
Fixpoint trim_rev (s : str) : str :=
  match s with
  | a :: b :: c :: d :: e :: s' =>
      if decide ([a; b; c; d; e] = reverse (L ".yaml")) then trim_rev s' else s
  | _ => s
  end.
Definition trim_yaml (s : str) : str := reverse (trim_rev (reverse s)).
(** [str::ends_with(".yaml")] *)
Definition is_yaml (s : str) : bool := starts_with (reverse (L ".yaml")) (reverse s).

(** src/history/fsh.rs:10-14 *)
Record history := FSHistory { next_map : gmap str str; current_version : str }.

(** src/history/fsh.rs:33-55: the entries, in the order in which the system lists them. *)
Fixpoint read_entries (d : hdir) (names : list str) (next : gmap str str) : exec (gmap str str) :=
  match names with
  | [] => Ret next
  | f :: names =>
      match d !! f with
      | None | Some Folder => read_entries d names next
      | Some _ =>
          if is_yaml f then
            ex v <- get_version d (trim_yaml f);
            match v_previous v with
            | Some p =>
                match next !! p with
                | Some existing => Raise (Branched p existing (v_name v))
                | None => read_entries d names (<[p := v_name v]> next)
                end
            | None => read_entries d names next
            end
          else read_entries d names next
      end
  end.

(** src/history/fsh.rs:57-61.  [Hang]: the map has a cycle (lemma [walk_hangs]). *)
Fixpoint walk_next (fuel : nat) (next : gmap str str) (current curr : str) : exec str :=
  match next !! curr with
  | None => Ret current
  | Some n => match fuel with 0 => Hang | S fuel => walk_next fuel next curr n end
  end.

(** The order in which [std::fs::read_dir] lists a directory is not specified. *)
Record listing := Listing {
  ls : hdir -> list str;
  ls_perm : forall d, ls d ≡ₚ (map_to_list d).*1 }.

(** src/history/fsh.rs:25-64, from_dir *)
Definition from_dir (l : listing) (d : hdir) : exec history :=
  ex next <- read_entries d (ls l d) ∅;
  ex c <- walk_next (S (size next)) next INIT INIT;
  Ret (FSHistory next c).

(** src/history/fsh.rs:66-68, get_current_version *)
Definition get_current_version (h : history) (d : hdir) : exec version :=
  get_version d (current_version h).

(** src/history/fsh.rs:82-97; [acc] is [versions] reversed.  [Hang]: the walk is in a
    cycle (lemma [range_hangs]). *)
Fixpoint range_loop (fuel : nat) (d : hdir) (from to curr : str) (acc : list str) : exec (list str) :=
  ex v <- get_version d curr;
  if decide (curr = from) then Ret acc
  else match v_previous v with
       | Some previous =>
           match fuel with
           | 0 => Hang
           | S fuel => range_loop fuel d from to previous (v_name v :: acc)
           end
       | None => Raise (Unreachable to from)
       end.
(** src/history/fsh.rs:78-99, get_upward_range *)
Definition get_upward_range (d : hdir) (from to : str) : exec (list str) :=
  range_loop (S (size d)) d from to to [].

(** src/history/fsh.rs:101-108, save_version: the file is created (or truncated), then
    written.  Partial writes count as [Broken]. *)
Definition save_version (v : version) : io hdir () :=
  do _ <- istep (fun d =>
    if decide (47%N ∈ v_name v) then (Raise FileError, d) else
    match d !! version_file (v_name v) with
    | Some Folder => (Raise FileError, d)
    | _ => (Ret (), <[version_file (v_name v) := Broken]> d)
    end);
  istep (fun d => (Ret (), <[version_file (v_name v) := Document v]> d)).

(** ** Snapshots *)

(** src/history/snapshot.rs:13-19 *)
Fixpoint replay (d : hdir) (names : list str) (db : database) : exec database :=
  match names with
  | [] => Ret db
  | n :: names =>
      ex v <- get_version d n;
      match apply_all (v_changes v) db with
      | (db', Ok _) => replay d names db'
      | (_, Err e) => Raise (SnapshotFailed e)
      end
  end.
(** src/history/snapshot.rs:5-21, calculate_snapshot *)
Definition calculate_snapshot (d : hdir) (n : str) : exec database :=
  ex versions <- get_upward_range d INIT n;
  ex init <- get_version d INIT;
  match apply_all (v_changes init) database_new with
  | (db, Ok _) => replay d versions db
  | (_, Err e) => Raise (SnapshotFailed e)
  end.

(** ** Commands *)

(** src/cmd/init.rs:22-36: the part about the history directory. *)
Definition init_history : io hdir () :=
  do _ <- save_version new_init; save_version (new_stage (v_name new_init)).

(** src/cmd/stage.rs:25-39 *)
Fixpoint stage_changes (cs : list change) (db : database) (v : version) : exec version :=
  match cs with
  | [] => Ret v
  | c :: cs =>
      ex r <- unwrap_result (revert c db);
      match apply c db with
      | (db', Ok _) => stage_changes cs db' (add_down (render_sql r) (add_up (render_sql c) (add_change c v)))
      | (_, Err e) => Raise (SnapshotFailed e)
      end
  end.
(** src/cmd/stage.rs:8-44, stage.  [definitions] is the outcome of loading the definitions
    (Load.v); [os] and [ot] are the iteration orders of the two snapshots. *)
Definition stage (l : listing) (os ot : iter_order) (definitions : exec database) : io hdir () :=
  do _ <- iread (from_dir l);
  do target <- iread (fun _ => definitions);
  do source <- iread (fun d => calculate_snapshot d STAGE);
  do v <- iread (fun d => get_version d STAGE);
  do v <- iread (fun _ => stage_changes (compare_diff os ot source target) source v);
  save_version v.

(** src/cmd/reset.rs:7-20, reset *)
Definition reset (l : listing) : io hdir () :=
  do _ <- iread (from_dir l);
  do v <- iread (fun d => get_version d STAGE);
  save_version (version_reset v).

(** src/cmd/make.rs:21-25; [now] is the formatted local time. *)
Definition made_name (now : str) (name : option str) : str :=
  now ++ L "-" ++ match name with Some n => n | None => L "auto" end.
(** src/cmd/make.rs:8-34, make *)
Definition make (l : listing) (now : str) (name : option str) : io hdir () :=
  do _ <- iread (from_dir l);
  do v <- iread (fun d => get_version d STAGE);
  if is_empty v then iret () else
  do _ <- save_version (set_name (made_name now name) v);
  save_version (new_stage (made_name now name)).
