(** What it means to expand environment variables in a text: the text is read as single
    characters and references, and every reference is replaced by a value. *)
From Verif Require Import Base.

Section spec.
  (** The word characters beyond ASCII. *)
  Context (beyond : N -> bool).

  Definition word (c : N) : Prop :=
    if decide (c < 128)%N
    then c ∈ L "ABCDEFGHIJKLMNOPQRSTUVWXYZabcdefghijklmnopqrstuvwxyz0123456789_"
    else beyond c = true.
  Definition name (n : str) : Prop := n <> [] /\ Forall word n.

  Inductive piece :=
    | Plain (c : N)
    | Bare (n : str)      (* $NAME *)
    | Braced (n : str).   (* ${NAME} *)
  Definition written (p : piece) : str :=
    match p with
    | Plain c => [c]
    | Bare n => L "$" ++ n
    | Braced n => L "${" ++ n ++ L "}"
    end.

  (** [s] starts with a reference. *)
  Definition refers (s : str) : Prop :=
    exists n rest, name n /\ (s = L "$" ++ n ++ rest \/ s = L "${" ++ n ++ L "}" ++ rest).
  (** A piece may stand before the text [next]: a name is as long as possible, and a
      character is only plain if no reference starts with it. *)
  Definition stands (p : piece) (next : str) : Prop :=
    match p with
    | Plain c => ~ refers (c :: next)
    | Bare n => name n /\ (forall c rest, next = c :: rest -> ~ word c)
    | Braced n => name n
    end.
  Inductive reads : str -> list piece -> Prop :=
    | reads_nil : reads [] []
    | reads_cons p next ps : stands p next -> reads next ps -> reads (written p ++ next) (p :: ps).

  (** The value of a piece when variables have the values [e]; unset ones count as empty. *)
  Definition value (e : str -> option str) (p : piece) : str :=
    match p with
    | Plain c => [c]
    | Bare n | Braced n => default [] (e n)
    end.
End spec.
