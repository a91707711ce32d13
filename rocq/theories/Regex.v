(** Regular expressions, as the crate "regex" matches them: the constructs that the two
    expressions of the repository use (src/definition/ddl/column.rs:36, src/util/expand.rs:6),
    with leftmost-first matching.  The meaning is that of the crate's documentation, which is
    that of a backtracking matcher that prefers the left side of an alternation and as many
    repetitions as possible; the crate itself simulates it with automata. *)
From Verif Require Import Base.

Inductive regex :=
  | REmpty
  | RStart                              (* ^ *)
  | REnd                                (* $, the end of the text: there is no multi-line mode *)
  | RSet (p : N -> bool)                (* a character or a class of characters *)
  | RCat (r1 r2 : regex)
  | RAlt (r1 r2 : regex)                (* r1|r2 *)
  | RStar (r : regex)                   (* r*, as many as possible *)
  | RGroup (name : str) (r : regex).    (* (?P<name>r) *)
(** [r?] and [r+], as many as possible; a literal character *)
Definition ROpt (r : regex) : regex := RAlt r REmpty.
Definition RPlus (r : regex) : regex := RCat r (RStar r).
Definition RChar (c : N) : regex := RSet (fun x => (x =? c)%N).

(** The captures, the last one first. *)
Definition captures : Type := list (str * str).
(** [Captures::name] *)
Fixpoint capture (name : str) (c : captures) : option str :=
  match c with
  | (n, t) :: c => if bool_decide (n = name) then Some t else capture name c
  | [] => None
  end.

Section matcher.
  Context {X : Type} (total : nat).

  (** Tries the ways to match at the start of [s], in the order of preference, until [k]
      accepts what is left and what was captured.  [total] is the length of the whole text.
      A repetition of the empty text is not tried. *)
  Fixpoint try_match (r : regex) (k : str -> captures -> option X) (s : str) (c : captures) : option X :=
    match r with
    | REmpty => k s c
    | RStart => if (length s =? total)%nat then k s c else None
    | REnd => match s with [] => k s c | _ => None end
    | RSet p => match s with x :: s' => if p x then k s' c else None | [] => None end
    | RCat r1 r2 => try_match r1 (try_match r2 k) s c
    | RAlt r1 r2 => match try_match r1 k s c with Some x => Some x | None => try_match r2 k s c end
    | RStar r =>
        (fix repeat (n : nat) (s : str) (c : captures) : option X :=
           match n with
           | 0 => k s c
           | S n =>
               match try_match r (fun s' c' => if (length s' <? length s)%nat then repeat n s' c' else None) s c with
               | Some x => Some x
               | None => k s c
               end
           end) (length s) s c
    | RGroup name r => try_match r (fun s' c' => k s' ((name, take (length s - length s') s) :: c')) s c
    end.
End matcher.

(** The match at the start of [s], a suffix of a text of length [total]: what is left after it,
    and what was captured. *)
Definition match_at (total : nat) (r : regex) (s : str) : option (str * captures) :=
  try_match total r (fun s' c => Some (s', c)) s [].
(** [Regex::captures]: the leftmost match. *)
Fixpoint find_from (total : nat) (r : regex) (s : str) : option (str * captures) :=
  match match_at total r s with
  | Some x => Some x
  | None => match s with [] => None | _ :: s' => find_from total r s' end
  end.
Definition regex_captures (r : regex) (s : str) : option captures := snd <$> find_from (length s) r s.

(** [Regex::replace_all]: from left to right, matches do not overlap; [skip] characters belong
    to the last match.  For expressions that do not match the empty text (an empty match is
    taken for none here). *)
Fixpoint replace_from (total : nat) (r : regex) (f : captures -> str) (skip : nat) (s : str) : str :=
  match s with
  | [] => []
  | x :: s' =>
      match skip with
      | S skip => replace_from total r f skip s'
      | 0 =>
          match match_at total r s with
          | Some (rest, c) =>
              if (length rest <? length s)%nat
              then f c ++ replace_from total r f (length s' - length rest) s'
              else x :: replace_from total r f 0 s'
          | None => x :: replace_from total r f 0 s'
          end
      end
  end.
Definition regex_replace_all (r : regex) (f : captures -> str) (s : str) : str :=
  replace_from (length s) r f 0 s.
