(** Specification vocabulary: how PostgreSQL cuts the text of a statement into tokens
    (PostgreSQL 14, section 4.1).

    Texts with comments, dollar quotes, escape strings ([E'...'] and the like), exponents and
    parameters are left out: [lex] gives [None] for them, as for texts that PostgreSQL
    rejects. *)
From Verif Require Import Base SpecSql.

Inductive token :=
  | Word (w : str)     (** a keyword or a name without quotes, folded to lower case *)
  | Quoted (n : str)   (** a name between double quotes *)
  | Number (d : str)   (** digits, perhaps with a dot *)
  | Quote (s : str)    (** a string constant *)
  | Sym (c : N).       (** any other character *)
Global Instance token_eq_dec : EqDecision token.
Proof. solve_decision. Defined.

Definition is_blank (c : N) : bool := (c =? 32)%N || (c =? 9)%N || (c =? 10)%N || (c =? 12)%N || (c =? 13)%N.
Definition is_digit (c : N) : bool := ((48 <=? c) && (c <=? 57))%N.
(** Operators and punctuation: [! # % & ( ) * + , . : ; < = > ? @ \[ \] ^ ` | ~]; not the
    dash and the slash, which may begin a comment. *)
Definition is_symbol (c : N) : bool :=
  existsb (N.eqb c)
    [33; 35; 37; 38; 40; 41; 42; 43; 44; 46; 58; 59; 60; 61; 62; 63; 64; 91; 93; 94; 96; 124; 126]%N.

(** Where the reader is; what was read of the current token, last character first. *)
Inductive mode :=
  | Between
  | InWord (w : str)
  | InNumber (d : str)
  | InQuoted (n : str)
  | QuotedEnds (n : str)   (** after a double quote that may be the closing one *)
  | InQuote (s : str)
  | QuoteEnds (s : str)    (** after a single quote that may be the closing one *)
  | AfterDash
  | AfterSlash.

(** The first character of a token, or a blank. *)
Definition begin_token (acc : list token) (c : N) : option (mode * list token) :=
  if is_blank c then Some (Between, acc)
  else if ident_start c then Some (InWord [c], acc)
  else if is_digit c then Some (InNumber [c], acc)
  else if (c =? 34)%N then Some (InQuoted [], acc)
  else if (c =? 39)%N then Some (InQuote [], acc)
  else if (c =? 45)%N then Some (AfterDash, acc)
  else if (c =? 47)%N then Some (AfterSlash, acc)
  else if is_symbol c then Some (Between, Sym c :: acc)
  else None.
(** The current token is complete. *)
Definition end_token (m : mode) (acc : list token) : option (list token) :=
  match m with
  | Between => Some acc
  | InWord w => Some (Word (fold_case <$> rev w) :: acc)
  | InNumber d => Some (Number (rev d) :: acc)
  | QuotedEnds n => match n with [] => None | _ => Some (Quoted (rev n) :: acc) end
  | QuoteEnds s => Some (Quote (rev s) :: acc)
  | AfterDash => Some (Sym 45 :: acc)
  | AfterSlash => Some (Sym 47 :: acc)
  | InQuoted _ | InQuote _ => None
  end.
Definition lex_step (m : mode) (acc : list token) (c : N) : option (mode * list token) :=
  let next := match end_token m acc with Some acc => begin_token acc c | None => None end in
  match m with
  | Between => next
  | InWord w =>
      if ident_cont c then Some (InWord (c :: w), acc)
      else if (c =? 34)%N || (c =? 39)%N then None else next
  | InNumber d =>
      if is_digit c || (c =? 46)%N then Some (InNumber (c :: d), acc)
      else if ident_start c then None else next
  | InQuoted n => if (c =? 34)%N then Some (QuotedEnds n, acc) else Some (InQuoted (c :: n), acc)
  | QuotedEnds n => if (c =? 34)%N then Some (InQuoted (c :: n), acc) else next
  | InQuote s => if (c =? 39)%N then Some (QuoteEnds s, acc) else Some (InQuote (c :: s), acc)
  | QuoteEnds s => if (c =? 39)%N then Some (InQuote (c :: s), acc) else next
  | AfterDash => if (c =? 45)%N then None else next
  | AfterSlash => if (c =? 42)%N then None else next
  end.
Fixpoint lex_from (m : mode) (acc : list token) (s : str) : option (mode * list token) :=
  match s with
  | [] => Some (m, acc)
  | c :: s => match lex_step m acc c with Some (m, acc) => lex_from m acc s | None => None end
  end.
Definition lex (s : str) : option (list token) :=
  match lex_from Between [] s with
  | Some (m, acc) => @rev token <$> end_token m acc
  | None => None
  end.

(** ** Names

    A name is cut off after 63 bytes. *)
Definition byte_length (c : N) : nat :=
  if (c <? 128)%N then 1 else if (c <? 2048)%N then 2 else if (c <? 65536)%N then 3 else 4.
Fixpoint clip_at (room : nat) (n : str) : str :=
  match n with
  | [] => []
  | c :: n => if Nat.leb (byte_length c) room then c :: clip_at (room - byte_length c) n else []
  end.
Definition clip (n : str) : str := clip_at 63 n.
(** A name, with or without quotes. *)
Definition name_of (t : token) : option str :=
  match t with
  | Quoted n => Some (clip n)
  | Word w => if decide (w ∈ reserved) then None else Some (clip w)
  | _ => None
  end.
(** Names that are read as they are when they are put between double quotes. *)
Definition nameable (n : str) : Prop := quotable n /\ clip n = n.
