(** Specification vocabulary for what the commands print. *)
From Verif Require Import Base Text Types Changes Sql History SpecHistory Dbh SpecDb Output.

(** What a migration has to tell: which version comes next, and which statement was done. *)
Inductive item := Begins (name : str) | Did (stmt : str).
(** All of it, for these versions. *)
Definition items (script : version -> list str) (vs : list version) : list item :=
  vs ≫= fun v => Begins (v_name v) :: (Did <$> script v).
(** The statements among it. *)
Definition statements (its : list item) : list str :=
  omap (fun i => match i with Did s => Some s | Begins _ => None end) its.
(** As it is printed. *)
Definition item_line (green dimmed : str -> str) (verb : str) (i : item) : str :=
  match i with
  | Begins n => L "  " ++ verb ++ L " version " ++ green n
  | Did s => L "    " ++ dimmed s
  end.
(** [its] was told and the statements [ss] were executed: what was told is the beginning of
    what there is to tell, and at most the last statement executed was not told yet. *)
Definition told_of (all its : list item) (ss : list str) : Prop :=
  its `prefix_of` all /\
  (ss = statements its \/ exists s, ss = statements its ++ [s] /\ (its ++ [Did s]) `prefix_of` all).

(** The two lines a migration starts with. *)
Definition heading (direction cur to : str) : list str :=
  [L "On database version: " ++ cur; L "Applying " ++ direction ++ L " migrations to " ++ to ++ L ":"].

(** Running [t] changes the state as running [m] does: if it is not killed it has the outcome
    of [m]; if it is killed, [m] has done the same when it is stopped in time. *)
Definition same_effect {S A : Type} (t : told S A) (m : io S A) : Prop :=
  forall k s r k' s' out, t (k, s) = ((r, (k', s')), out) ->
    (r <> Killed -> exists j, j <= k /\ exists x, m (j, s) = (r, (x, s'))) /\
    (r = Killed -> exists j r1 x, j <= k /\ m (j, s) = (r1, (x, s'))).

(** The lines of [stage] for these changes. *)
Definition change_lines (green dimmed : str -> str) (cs : list change) : list str :=
  L "Staging changes:" ::
  match cs with
  | [] => [L "    No changes to stage."]
  | _ => (fun c => L "    " ++ green (render_sql c) ++ L " " ++ dimmed (L "-- " ++ display_name c)) <$> cs
  end.
(** A part of [status]; nothing if there are no changes. *)
Definition part (title : str) (paint : str -> str) (cs : list change) : list str :=
  match cs with [] => [] | _ => title :: ((fun c => L "    " ++ paint (render_sql c)) <$> cs) end.
