(** Environment variables in the configuration: src/util/expand.rs. *)
From Verif Require Import Base Regex.

(** What [std::env::var] finds under a name that is set: a text, or bytes that are not
    UTF-8. *)
Inductive env_value :=
  | Unicode (s : str)
  | OtherBytes.
Notation environment := (str -> option env_value).

(** src/util/expand.rs:10, [env::var(..).unwrap_or_else(|_| "".to_string())] *)
Definition env_var (env : environment) (name : str) : str :=
  match env name with
  | Some (Unicode s) => s
  | _ => []
  end.

(** src/util/expand.rs:9, [trim_matches(|c| c == '{' || c == '}')] *)
Definition brace (c : N) : bool := bool_decide (c = 123%N) || bool_decide (c = 125%N).
Fixpoint trim_start (s : str) : str :=
  match s with
  | c :: s' => if brace c then trim_start s' else s
  | [] => []
  end.
Definition trim_braces (s : str) : str := reverse (trim_start (reverse (trim_start s))).

Section expand.
  (** The members of [\w] beyond ASCII. *)
  Context (uword : N -> bool).

  (** [\w] *)
  Definition is_word (c : N) : bool :=
    if (c <? 128)%N
    then ((65 <=? c) && (c <=? 90))%N || ((97 <=? c) && (c <=? 122))%N
         || ((48 <=? c) && (c <=? 57))%N || (c =? 95)%N
    else uword c.
  (** src/util/expand.rs:6, [\$(\w+|\{\w+\})]; the group has no name, and is called "1". *)
  Definition reference_regex : regex :=
    RCat (RChar 36)
      (RGroup (L "1")
        (RAlt (RPlus (RSet is_word)) (RCat (RChar 123) (RCat (RPlus (RSet is_word)) (RChar 125))))).
  (** src/util/expand.rs:5-13, expand_envvar.  [&caps[1]] would panic for a match without the
      group, which does not exist ([ExpandLemmas.reference_group]). *)
  Definition expand_envvar (env : environment) (s : str) : str :=
    regex_replace_all reference_regex
      (fun caps => env_var env (trim_braces (default [] (capture (L "1") caps)))) s.
End expand.
