(** Text primitives of the Rust standard library used by the code. *)
From Verif Require Import Base.

(** [char::is_whitespace]: the Unicode White_Space property; also the regex class [\s]. *)
Definition is_ws (c : N) : bool :=
  ((9 <=? c) && (c <=? 13))%N || (c =? 32)%N || (c =? 133)%N || (c =? 160)%N || (c =? 5760)%N ||
  ((8192 <=? c) && (c <=? 8202))%N || (c =? 8232)%N || (c =? 8233)%N || (c =? 8239)%N ||
  (c =? 8287)%N || (c =? 12288)%N.

(** [str::trim_start] *)
Fixpoint trim_start (s : str) : str :=
  match s with
  | [] => []
  | c :: s' => if is_ws c then trim_start s' else s
  end.

(** [str::trim_end] *)
Definition trim_end (s : str) : str := reverse (trim_start (reverse s)).

(** [str::trim] *)
Definition trim (s : str) : str := trim_end (trim_start s).

(** [str::to_lowercase], as far as a comparison with ASCII text can tell: A-Z become a-z,
    U+212A (Kelvin sign) becomes k, U+0130 becomes i followed by U+0307; every other
    character that is not ASCII becomes something that starts with a character that is
    not ASCII, and is left as it is here. *)
Definition lower_char (c : N) : str :=
  if ((65 <=? c) && (c <=? 90))%N then [(c + 32)%N]
  else if (c =? 8490)%N then [107%N]
  else if (c =? 304)%N then [105; 775]%N
  else [c].
(** See [lower_char]. *)
Definition lower (s : str) : str := s ≫= lower_char.

(** [str::starts_with] *)
Fixpoint starts_with (p s : str) : bool :=
  match p, s with
  | [], _ => true
  | a :: p, b :: s => (a =? b)%N && starts_with p s
  | _ :: _, [] => false
  end.

(** Number of bytes of a character in UTF-8. *)
Definition utf8_len (c : N) : nat :=
  if (c <? 128)%N then 1 else if (c <? 2048)%N then 2 else if (c <? 65536)%N then 3 else 4.

(** [&s[n..]]: [None] is the panic when byte [n] is not a character boundary or lies
    beyond the end. *)
Fixpoint slice_from (n : nat) (s : str) : option str :=
  match n, s with
  | O, _ => Some s
  | _, [] => None
  | _, c :: s => if decide (utf8_len c <= n) then slice_from (n - utf8_len c) s else None
  end.

(** [str::split('.')] for a single separator character. *)
Fixpoint split_on (sep : N) (s : str) : list str :=
  match s with
  | [] => [[]]
  | c :: s => if (c =? sep)%N then [] :: split_on sep s
              else match split_on sep s with
                   | [] => [[c]]
                   | p :: ps => (c :: p) :: ps
                   end
  end.

(** [[_]::join] *)
Fixpoint join_with (sep : str) (l : list str) : str :=
  match l with
  | [] => []
  | [s] => s
  | s :: l => s ++ sep ++ join_with sep l
  end.

(** The outcome of a call that returns a [Result] and may panic. *)
Inductive outcome (E A : Type) :=
  | Done (a : A)
  | Fail (e : E)
  | Panic.
Arguments Done {_ _} _.
Arguments Fail {_ _} _.
Arguments Panic {_ _}.

Global Instance outcome_ret {E} : MRet (outcome E) := fun A a => Done a.
Global Instance outcome_bind {E} : MBind (outcome E) := fun A B f m =>
  match m with Done a => f a | Fail e => Fail e | Panic => Panic end.

(** [Option::unwrap]. *)
Definition unwrap {E A} (o : option A) : outcome E A :=
  match o with Some a => Done a | None => Panic end.

(** [assert!]. *)
Definition assert_that {E} (P : Prop) {_ : Decision P} : outcome E () :=
  if decide P then Done () else Panic.
