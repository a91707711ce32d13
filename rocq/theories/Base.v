(** Strings, results and mutable borrows used by the model of podo. *)
From stdpp Require Export base list gmap strings.
From Coq Require Import Ascii String.
Export StringSyntax.

(** A Rust [String] is a sequence of Unicode scalar values.  The model keeps the
    code points; UTF-8 lengths are computed where the code uses byte offsets. *)
Notation str := (list N).

(** ASCII literals of the Rust source. *)
Definition L (s : string) : str := N_of_ascii <$> list_ascii_of_string s.
Arguments L _%string : simpl never.

(** src/snapshot/error.rs:1-16, enum SnapshotError (the [path] and [type] fields). *)
Inductive snapshot_error :=
  | ObjectNotFound (path : list str) (type : str)
  | ObjectAlreadyExists (path : list str) (type : str)
  | ObjectHasUnexpectedType (path : list str) (expected actual : str).

Global Instance snapshot_error_eq_dec : EqDecision snapshot_error.
Proof. solve_decision. Defined.

(** Rust's [Result<A, SnapshotError>]. *)
Inductive result (A : Type) :=
  | Ok (a : A)
  | Err (e : snapshot_error).
Arguments Ok {_} _.
Arguments Err {_} _.

(** Rust's [?] on results. *)
Definition rbind {A B} (r : result A) (f : A -> result B) : result B :=
  match r with Ok a => f a | Err e => Err e end.
Notation "'let!' x ':=' m 'in' k" := (rbind m (fun x => k))
  (at level 200, x pattern, m at level 100, k at level 200, right associativity).

(** A function taking [&mut S] and returning [Result<A, SnapshotError>]: it returns the
    final value of the borrowed object together with the result, so a mutation that
    happens before an error stays visible. *)
Definition mut (S A : Type) : Type := S -> S * result A.

(** [Ok(a)] without touching the borrowed object. *)
Definition mok {S A} (a : A) : mut S A := fun s => (s, Ok a).

(** A call that only reads the borrowed object. *)
Definition mread {S A} (f : S -> result A) : mut S A := fun s => (s, f s).

(** Sequencing with [?]: later steps see the object left by earlier ones. *)
Definition mthen {S A B} (m : mut S A) (f : A -> mut S B) : mut S B :=
  fun s => match m s with
           | (s', Ok a) => f a s'
           | (s', Err e) => (s', Err e)
           end.
Notation "'let?' x ':=' m 'in' k" := (mthen m (fun x => k))
  (at level 200, x pattern, m at level 100, k at level 200, right associativity).

(** The value of the borrowed object after a call that succeeded. *)
Definition mut_ok {S A} (p : S * result A) : option S :=
  match p with (s, Ok _) => Some s | (_, Err _) => None end.
