(** Decision procedures for the predicates of SpecDefinition.v, used by the worked examples. *)
From Verif Require Import Base Text Types Changes SpecSnapshot Node Yaml SpecDefinition DecideSpec.

Lemma some_forall_dec {A} (o : option A) (P : A -> Prop) :
  (forall a, Decision (P a)) -> Decision (forall a, o = Some a -> P a).
Proof.
  intros HP. destruct o as [a|].
  - destruct (decide (P a)) as [H|H]; [left; by intros ? [= <-]|right; by intros H'; apply H, H'].
  - by left.
Defined.
Global Instance bare_dec s : Decision (bare s).
Proof. unfold bare. apply and_dec; apply some_forall_dec; apply _. Defined.
Global Instance lacks_dec c s : Decision (lacks c s).
Proof. unfold lacks. apply _. Defined.
Global Instance undotted_dec s : Decision (undotted s).
Proof. unfold undotted. apply _. Defined.
Global Instance column_writable_dec ty nn d : Decision (column_writable ty nn d).
Proof.
  unfold column_writable. repeat (apply and_dec; [apply _|]). apply some_forall_dec. apply _.
Defined.
Lemma begins_with_iff p s : starts_with p (lower s) = true <-> begins_with p s.
Proof.
  unfold begins_with. generalize (lower s). clear s. induction p as [|c p IH]; intros s; simpl.
  - split; [|done]. by exists s.
  - destruct s as [|d s]; [split; [done|by intros []]|].
    rewrite andb_true_iff, N.eqb_eq, IH. split.
    + intros [-> [r ->]]. by exists r.
    + intros [r [= -> ->]]. split; [done|by exists r].
Qed.
Global Instance begins_with_dec p s : Decision (begins_with p s).
Proof.
  destruct (starts_with p (lower s)) eqn:E; [left; by apply begins_with_iff|right].
  rewrite <- begins_with_iff. by rewrite E.
Defined.
Global Instance name_writable_dec k s : Decision (name_writable k s).
Proof. unfold name_writable. apply _. Defined.
Global Instance constraint_writable_dec s c : Decision (constraint_writable s c).
Proof. destruct c; simpl; apply _. Defined.
Global Instance column_savable_dec c : Decision (column_savable c).
Proof. unfold column_savable. apply _. Defined.
Global Instance constraint_savable_dec s c : Decision (constraint_savable s c).
Proof. unfold constraint_savable. destruct c; simpl; apply _. Defined.
Lemma iff_dec' (P Q : Prop) `{!Decision P, !Decision Q} : Decision (P <-> Q).
Proof. apply _. Defined.
Global Instance sequence_writable_dec s : Decision (sequence_writable s).
Proof. unfold sequence_writable. apply _. Defined.
Global Instance relation_savable_dec r : Decision (relation_savable r).
Proof.
  destruct r; simpl; try apply _.
  repeat (apply and_dec; [apply _|]). apply some_forall_dec. apply _.
Defined.
Global Instance schema_savable_dec s : Decision (schema_savable s).
Proof. unfold schema_savable. apply _. Defined.
Global Instance savable_dec d : Decision (savable d).
Proof. unfold savable. apply _. Defined.
Global Instance int64_dec z : Decision (int64 z).
Proof. unfold int64. apply _. Defined.
Global Instance machine_db_dec d : Decision (machine_db d).
Proof.
  unfold machine_db. apply map_Forall_dec. intros _ s. apply map_Forall_dec. intros _ [| | |q];
    unfold int64_sequence; apply _.
Defined.
