(** When two stored documents say the same thing: the keys of the maps may be written in
    another order. *)
From Verif Require Import Base Serde.

Inductive reordered : data -> data -> Prop :=
  | as_is d : reordered d d
  | in_sequence l l' : Forall2 reordered l l' -> reordered (DSeq l) (DSeq l')
  | in_map m m' m'' :
      Forall2 (fun e e' => e.1 = e'.1 /\ reordered e.2 e'.2) m m' ->
      m' ≡ₚ m'' ->
      reordered (DMap m) (DMap m'').
