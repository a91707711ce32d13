(** Specification vocabulary: migrating a database that a snapshot describes. *)
From Verif Require Import Base Text Types Changes Sql SpecSnapshot History SpecHistory SpecSql
  SpecLex SpecStatement SpecServer SpecAccept.

(** The statements of these changes are none that PostgreSQL knows. *)
Definition unreadable (c : change) : Prop :=
  match c with
  | AddForeignKey _ _ _ _ _ _ _ _ _ _ _ _ => True
  | CreateFunction _ _ body lang ret vol => is_Some (function_meant body lang ret vol)
  | _ => False
  end.

(** The changes that take back the changes of the versions lead from each snapshot to the one
    before it, say what they mean, and are carried out. *)
Inductive taken_back : database -> list version -> Prop :=
  | taken_back_nil d : taken_back d []
  | taken_back_cons d v vs d1 rs d2 :
      apply_all (v_changes v) d = (d1, Ok ()) -> collect_reverts (v_changes v) d = Some rs ->
      apply_all (reverse rs) d1 = (d2, Ok ()) -> db_equiv d2 d ->
      Forall well_spelled rs -> faithful d1 (reverse rs) -> acceptable d1 (reverse rs) ->
      taken_back d1 vs -> taken_back d (v :: vs).
