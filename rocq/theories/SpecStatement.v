(** Specification vocabulary: the statements of PostgreSQL that podo generates, and how they
    are read from their text (PostgreSQL 14, part VI, SQL commands).

    Optional clauses that podo never writes ([IF EXISTS], [CASCADE], [USING] and so on) are
    left out: a statement with one of them is read as [None], as one that PostgreSQL rejects.
    Types and expressions are not looked into: they are the tokens up to the word that ends
    them. *)
From Verif Require Import Base Text Types Changes SpecSql SpecLex.

(** ** Statements *)

Record column_spec := ColumnSpec {
  cs_type : list token; cs_notnull : bool; cs_default : option (list token) }.
Inductive match_type := MatchFull | MatchPartial | MatchSimple.
Inductive action := NoAction | Restrict | Cascade | SetNull | SetDefault.
Inductive constraint_spec :=
  | KPrimary (columns : list str) (deferrable deferred : bool)
  | KUnique (columns : list str) (deferrable deferred : bool)
  | KCheck (expression : list token)
  | KForeign (columns : list str) (schema table : str) (target_columns : list str)
      (kind : match_type) (on_update on_delete : action) (deferrable deferred : bool).
Record sequence_spec := SequenceSpec {
  ss_type : str; ss_increment : Z; ss_min : Z; ss_max : Z; ss_start : Z; ss_cache : Z;
  ss_cycle : bool }.
Record function_spec := FunctionSpec {
  fs_arguments : list token; fs_returns : list token; fs_language : str; fs_volatility : str;
  fs_body : str }.

(** What is done to a table. *)
Inductive table_action :=
  | ToAddColumn (name : str) (c : column_spec)
  | ToDropColumn (name : str)
  | ToRenameColumn (name to : str)
  | ToSetType (name : str) (ty : list token)
  | ToSetDefault (name : str) (e : option (list token))
  | ToSetNotNull (name : str) (b : bool)
  | ToAddConstraint (name : str) (k : constraint_spec)
  | ToAlterConstraint (name : str) (deferrable deferred : bool)
  | ToDropConstraint (name : str).
Inductive statement :=
  | DoCreateSchema (name : str)
  | DoDropSchema (name : str)
  | DoCreateTable (schema name : str) (columns : list (str * column_spec))
  | DoDropTable (schema name : str)
  | DoAlterTable (schema name : str) (what : table_action)
  | DoCreateIndex (name schema table : str) (unique : bool) (method : str) (keys : list (list token))
  | DoDropIndex (schema name : str)
  | DoCreateSequence (schema name : str) (q : sequence_spec)
  | DoDropSequence (schema name : str)
  | DoCreateView (schema name : str) (query : list token)
  | DoDropView (schema name : str)
  | DoCreateFunction (schema name : str) (f : function_spec)
  | DoDropFunction (schema name : str).

(** ** Reading *)

Fixpoint str_eqb (a b : str) : bool :=
  match a, b with
  | [], [] => true
  | x :: a, y :: b => (x =? y)%N && str_eqb a b
  | _, _ => false
  end.
(** The keyword, and what follows. *)
Definition word (k : str) (l : list token) : option (list token) :=
  match l with
  | Word w :: l => if str_eqb w k then Some l else None
  | _ => None
  end.
Fixpoint words_of (ks : list str) (l : list token) : option (list token) :=
  match ks with [] => Some l | k :: ks => word k l ≫= words_of ks end.
Notation keywords ks l := (words_of (L <$> ks%list%string) l).
Definition symbol (c : N) (l : list token) : option (list token) :=
  match l with
  | Sym d :: l => if (d =? c)%N then Some l else None
  | _ => None
  end.
Definition name (l : list token) : option (str * list token) :=
  match l with
  | t :: l => (fun n => (n, l)) <$> name_of t
  | [] => None
  end.
Definition qualified_name (l : list token) : option (str * str * list token) :=
  name l ≫= fun '(s, l) => symbol 46 l ≫= fun l => name l ≫= fun '(n, l) => Some (s, n, l).
Definition nothing_left (l : list token) : option unit :=
  match l with [] => Some tt | _ => None end.

(** *** Brackets *)

Definition opens (t : token) : bool := match t with Sym c => (c =? 40)%N || (c =? 91)%N | _ => false end.
Definition closes (t : token) : bool := match t with Sym c => (c =? 41)%N || (c =? 93)%N | _ => false end.
(** The tokens up to the first one outside of brackets with a property, and from there. *)
Fixpoint until (stop : token -> bool) (depth : nat) (l : list token) : list token * list token :=
  match l with
  | [] => ([], [])
  | t :: l' =>
      match depth with
      | O => if stop t || closes t then ([], l)
             else let '(a, b) := until stop (if opens t then 1 else 0) l' in (t :: a, b)
      | S d => let '(a, b) := until stop (if opens t then S depth else if closes t then d else depth) l' in
               (t :: a, b)
      end
  end.
(** What is between parentheses, and what follows. *)
Definition group (l : list token) : option (list token * list token) :=
  symbol 40 l ≫= fun l =>
  let '(a, l) := until (fun _ => false) 0 l in
  symbol 41 l ≫= fun l => Some (a, l).
Definition is_comma (t : token) : bool := match t with Sym c => (c =? 44)%N | _ => false end.
(** The parts between commas outside of brackets. *)
Fixpoint parts (fuel : nat) (l : list token) : option (list (list token)) :=
  match fuel with
  | O => None
  | S fuel =>
      match until is_comma 0 l with
      | ([], _) => None
      | (a, []) => Some [a]
      | (a, t :: l) => if is_comma t then cons a <$> parts fuel l else None
      end
  end.
Definition comma_separated (l : list token) : option (list (list token)) := parts (length l) l.
Definition one_name (l : list token) : option str :=
  match l with [t] => name_of t | _ => None end.
Definition name_list (l : list token) : option (list str) := comma_separated l ≫= fun l => mapM one_name l.

(** *** Columns *)

(** The words that may follow the type or the default of a column. *)
Definition column_stop (t : token) : bool :=
  match t with
  | Word w => existsb (str_eqb w) (L <$> ["not"; "null"; "default"; "constraint"; "check"; "unique";
      "primary"; "references"; "collate"; "generated"; "deferrable"; "initially"]%string)
  | Sym c => (c =? 44)%N
  | _ => false
  end.
(** The options after the type: [NULL] or [NOT NULL], [DEFAULT], each at most once. *)
Fixpoint column_options (fuel : nat) (nn : option bool) (d : option (list token)) (l : list token) :
    option (option bool * option (list token)) :=
  match l, fuel with
  | [], _ => Some (nn, d)
  | _, O => None
  | _, S fuel =>
      match keywords ["not"; "null"] l, keywords ["null"] l, keywords ["default"] l with
      | Some l, _, _ => match nn with None => column_options fuel (Some true) d l | _ => None end
      | _, Some l, _ => match nn with None => column_options fuel (Some false) d l | _ => None end
      | _, _, Some (t :: l) =>
          let '(e, l) := until column_stop (if opens t then 1 else 0) l in
          match d with None => column_options fuel nn (Some (t :: e)) l | _ => None end
      | _, _, _ => None
      end
  end.
(** [SERIAL] is not a type but an abbreviation, which is left out. *)
Definition serial (ty : list token) : bool :=
  match ty with
  | [Word w] => existsb (str_eqb w) (L <$> ["serial"; "bigserial"; "smallserial"; "serial2"; "serial4"; "serial8"]%string)
  | _ => false
  end.
Definition column_spec_of (l : list token) : option column_spec :=
  match until column_stop 0 l with
  | ([], _) => None
  | (ty, l) =>
      if serial ty then None else
      column_options (length l) None None l ≫= fun '(nn, d) =>
      Some (ColumnSpec ty (default false nn) d)
  end.
Definition column_element (l : list token) : option (str * column_spec) :=
  name l ≫= fun '(n, l) => column_spec_of l ≫= fun c => Some (n, c).

(** *** Constraints *)

(** Deferrability: each of the two at most once. *)
Fixpoint attributes (d i : option bool) (l : list token) : option (option bool * option bool) :=
  match l with
  | [] => Some (d, i)
  | Word a :: l =>
      if str_eqb a (L "deferrable") then match d with None => attributes (Some true) i l | _ => None end
      else match l with
           | Word b :: l =>
               if str_eqb a (L "not") && str_eqb b (L "deferrable")
               then match d with None => attributes (Some false) i l | _ => None end
               else if str_eqb a (L "initially") && str_eqb b (L "deferred")
               then match i with None => attributes d (Some true) l | _ => None end
               else if str_eqb a (L "initially") && str_eqb b (L "immediate")
               then match i with None => attributes d (Some false) l | _ => None end
               else None
           | _ => None
           end
  | _ => None
  end.
(** A constraint that is initially deferred is deferrable; it must not be said not to be. *)
Definition deferral_of (l : list token) : option (bool * bool) :=
  attributes None None l ≫= fun '(d, i) =>
  match d, i with
  | Some false, Some true => None
  | None, Some true => Some (true, true)
  | d, i => Some (default false d, default false i)
  end.
Definition action_of (l : list token) : option (action * list token) :=
  match keywords ["no"; "action"] l, keywords ["restrict"] l, keywords ["cascade"] l,
        keywords ["set"; "null"] l, keywords ["set"; "default"] l with
  | Some l, _, _, _, _ => Some (NoAction, l)
  | _, Some l, _, _, _ => Some (Restrict, l)
  | _, _, Some l, _, _ => Some (Cascade, l)
  | _, _, _, Some l, _ => Some (SetNull, l)
  | _, _, _, _, Some l => Some (SetDefault, l)
  | _, _, _, _, _ => None
  end.
Definition match_of (l : list token) : option (match_type * list token) :=
  match keywords ["match"; "full"] l, keywords ["match"; "partial"] l, keywords ["match"; "simple"] l with
  | Some l, _, _ => Some (MatchFull, l)
  | _, Some l, _ => Some (MatchPartial, l)
  | _, _, Some l => Some (MatchSimple, l)
  | _, _, _ => if keywords ["match"] l then None else Some (MatchSimple, l)
  end.
(** [ON UPDATE] and [ON DELETE], in either order. *)
Fixpoint actions (fuel : nat) (u d : option action) (l : list token) :
    option (option action * option action * list token) :=
  match fuel with
  | O => None
  | S fuel =>
      match keywords ["on"; "update"] l, keywords ["on"; "delete"] l with
      | Some l, _ => match u, action_of l with None, Some (a, l) => actions fuel (Some a) d l | _, _ => None end
      | _, Some l => match d, action_of l with None, Some (a, l) => actions fuel u (Some a) l | _, _ => None end
      | None, None => Some (u, d, l)
      end
  end.
Definition constraint_of (l : list token) : option constraint_spec :=
  match keywords ["primary"; "key"] l, keywords ["unique"] l, keywords ["check"] l,
        keywords ["foreign"; "key"] l with
  | Some l, _, _, _ =>
      group l ≫= fun '(cs, l) => name_list cs ≫= fun cs => deferral_of l ≫= fun '(d, i) =>
      Some (KPrimary cs d i)
  | _, Some l, _, _ =>
      group l ≫= fun '(cs, l) => name_list cs ≫= fun cs => deferral_of l ≫= fun '(d, i) =>
      Some (KUnique cs d i)
  | _, _, Some l, _ =>
      (* a check cannot be deferrable *)
      group l ≫= fun '(e, l) => deferral_of l ≫= fun '(d, i) =>
      match e, d with [], _ | _, true => None | _, false => Some (KCheck e) end
  | _, _, _, Some l =>
      group l ≫= fun '(cs, l) => name_list cs ≫= fun cs =>
      keywords ["references"] l ≫= fun l => qualified_name l ≫= fun '(s, t, l) =>
      group l ≫= fun '(tcs, l) => name_list tcs ≫= fun tcs =>
      match_of l ≫= fun '(m, l) => actions 3 None None l ≫= fun '(u, d, l) =>
      deferral_of l ≫= fun '(df, i) =>
      Some (KForeign cs s t tcs m (default NoAction u) (default NoAction d) df i)
  | _, _, _, _ => None
  end.

(** *** ALTER TABLE *)

Definition type_stop (t : token) : bool :=
  match t with
  | Word w => existsb (str_eqb w) (L <$> ["collate"; "using"]%string)
  | Sym c => (c =? 44)%N
  | _ => false
  end.
(** All that is left is one type or one expression. *)
Definition whole (stop : token -> bool) (l : list token) : option (list token) :=
  match until stop 0 l with
  | ([], _) | (_, _ :: _) => None
  | (a, []) => Some a
  end.
Definition alter_column (n : str) (l : list token) : option table_action :=
  match keywords ["set"; "data"; "type"] l, keywords ["set"; "default"] l, keywords ["drop"; "default"] l,
        keywords ["set"; "not"; "null"] l, keywords ["drop"; "not"; "null"] l with
  | Some l, _, _, _, _ => whole type_stop l ≫= fun ty => Some (ToSetType n ty)
  | _, Some l, _, _, _ => whole is_comma l ≫= fun e => Some (ToSetDefault n (Some e))
  | _, _, Some l, _, _ => nothing_left l ≫= fun _ => Some (ToSetDefault n None)
  | _, _, _, Some l, _ => nothing_left l ≫= fun _ => Some (ToSetNotNull n true)
  | _, _, _, _, Some l => nothing_left l ≫= fun _ => Some (ToSetNotNull n false)
  | _, _, _, _, _ => None
  end.
Definition table_action_of (l : list token) : option table_action :=
  match keywords ["add"; "column"] l, keywords ["drop"; "column"] l, keywords ["rename"; "column"] l,
        keywords ["alter"; "column"] l, keywords ["add"; "constraint"] l, keywords ["alter"; "constraint"] l,
        keywords ["drop"; "constraint"] l with
  | Some l, _, _, _, _, _, _ => column_element l ≫= fun '(n, c) => Some (ToAddColumn n c)
  | _, Some l, _, _, _, _, _ => name l ≫= fun '(n, l) => nothing_left l ≫= fun _ => Some (ToDropColumn n)
  | _, _, Some l, _, _, _, _ =>
      name l ≫= fun '(n, l) => keywords ["to"] l ≫= fun l => name l ≫= fun '(n', l) =>
      nothing_left l ≫= fun _ => Some (ToRenameColumn n n')
  | _, _, _, Some l, _, _, _ => name l ≫= fun '(n, l) => alter_column n l
  | _, _, _, _, Some l, _, _ => name l ≫= fun '(n, l) => constraint_of l ≫= fun k => Some (ToAddConstraint n k)
  | _, _, _, _, _, Some l, _ => name l ≫= fun '(n, l) => deferral_of l ≫= fun '(d, i) => Some (ToAlterConstraint n d i)
  | _, _, _, _, _, _, Some l => name l ≫= fun '(n, l) => nothing_left l ≫= fun _ => Some (ToDropConstraint n)
  | _, _, _, _, _, _, _ => None
  end.

(** *** Sequences *)

Fixpoint number (acc : Z) (d : str) : option Z :=
  match d with
  | [] => Some acc
  | c :: d => if is_digit c then number (acc * 10 + Z.of_N (c - 48)) d else None
  end.
Definition integer (l : list token) : option (Z * list token) :=
  match l with
  | Number d :: l => (fun z => (z, l)) <$> number 0 d
  | Sym c :: Number d :: l => if (c =? 45)%N then (fun z => (- z, l)%Z) <$> number 0 d else None
  | _ => None
  end.
(** The clauses in the order in which podo writes them; all of them. *)
Definition sequence_of (l : list token) : option sequence_spec :=
  keywords ["as"] l ≫= fun l => name l ≫= fun '(ty, l) =>
  keywords ["increment"; "by"] l ≫= fun l => integer l ≫= fun '(inc, l) =>
  keywords ["minvalue"] l ≫= fun l => integer l ≫= fun '(mn, l) =>
  keywords ["maxvalue"] l ≫= fun l => integer l ≫= fun '(mx, l) =>
  keywords ["start"; "with"] l ≫= fun l => integer l ≫= fun '(st, l) =>
  keywords ["cache"] l ≫= fun l => integer l ≫= fun '(ca, l) =>
  match keywords ["cycle"] l, keywords ["no"; "cycle"] l with
  | Some l, _ => nothing_left l ≫= fun _ => Some (SequenceSpec ty inc mn mx st ca true)
  | _, Some l => nothing_left l ≫= fun _ => Some (SequenceSpec ty inc mn mx st ca false)
  | _, _ => None
  end.

(** *** Functions *)

Definition function_stop (t : token) : bool :=
  match t with
  | Word w => existsb (str_eqb w) (L <$> ["returns"; "language"; "as"; "immutable"; "stable"; "volatile";
      "called"; "strict"; "security"; "cost"; "rows"; "set"; "window"; "parallel"; "support"; "leakproof";
      "not"; "external"; "transform"; "return"; "begin"]%string)
  | Sym c => (c =? 44)%N
  | _ => false
  end.
Definition volatilities : list str := L <$> ["immutable"; "stable"; "volatile"]%string.
(** The clauses after the result type: language, volatility and body, each at most once. *)
Fixpoint function_options (la vo bo : option str) (l : list token) : option (option str * option str * option str) :=
  match l with
  | [] => Some (la, vo, bo)
  | Word a :: l =>
      if existsb (str_eqb a) volatilities
      then match vo with None => function_options la (Some a) bo l | _ => None end
      else if str_eqb a (L "language")
      then match la, l with
           | None, Word w :: l => function_options (Some w) vo bo l
           | None, Quote w :: l => function_options (Some w) vo bo l
           | _, _ => None
           end
      else if str_eqb a (L "as")
      then match bo, l with
           | None, Quote b :: l => function_options la vo (Some b) l
           | _, _ => None
           end
      else None
  | _ => None
  end.
(** Language and body must be given. *)
Definition function_of (l : list token) : option function_spec :=
  group l ≫= fun '(args, l) => keywords ["returns"] l ≫= fun l =>
  match until function_stop 0 l with
  | ([], _) => None
  | (ret, l) =>
      function_options None None None l ≫= fun '(la, vo, bo) =>
      match la, bo with
      | Some la, Some bo => Some (FunctionSpec args ret la (default (L "volatile") vo) bo)
      | _, _ => None
      end
  end.

(** *** Statements *)

Definition create_index_of (unique : bool) (l : list token) : option statement :=
  name l ≫= fun '(n, l) => keywords ["on"] l ≫= fun l => qualified_name l ≫= fun '(s, t, l) =>
  keywords ["using"] l ≫= fun l => name l ≫= fun '(m, l) =>
  group l ≫= fun '(ks, l) => comma_separated ks ≫= fun ks => nothing_left l ≫= fun _ =>
  Some (DoCreateIndex n s t unique m ks).
Definition create_of (l : list token) : option statement :=
  match keywords ["schema"] l, keywords ["table"] l, keywords ["index"] l, keywords ["unique"; "index"] l,
        keywords ["sequence"] l, keywords ["view"] l, keywords ["function"] l with
  | Some l, _, _, _, _, _, _ => name l ≫= fun '(n, l) => nothing_left l ≫= fun _ => Some (DoCreateSchema n)
  | _, Some l, _, _, _, _, _ =>
      qualified_name l ≫= fun '(s, t, l) => group l ≫= fun '(cs, l) => nothing_left l ≫= fun _ =>
      match cs with
      | [] => Some (DoCreateTable s t [])
      | _ => comma_separated cs ≫= fun cs => mapM column_element cs ≫= fun cs => Some (DoCreateTable s t cs)
      end
  | _, _, Some l, _, _, _, _ => create_index_of false l
  | _, _, _, Some l, _, _, _ => create_index_of true l
  | _, _, _, _, Some l, _, _ =>
      qualified_name l ≫= fun '(s, n, l) => sequence_of l ≫= fun q => Some (DoCreateSequence s n q)
  | _, _, _, _, _, Some l, _ =>
      qualified_name l ≫= fun '(s, v, l) => keywords ["as"] l ≫= fun q =>
      match q with [] => None | _ => Some (DoCreateView s v q) end
  | _, _, _, _, _, _, Some l =>
      qualified_name l ≫= fun '(s, f, l) => function_of l ≫= fun f' => Some (DoCreateFunction s f f')
  | _, _, _, _, _, _, _ => None
  end.
Definition dropped (mk : str -> str -> statement) (l : list token) : option statement :=
  qualified_name l ≫= fun '(s, n, l) => nothing_left l ≫= fun _ => Some (mk s n).
Definition drop_of (l : list token) : option statement :=
  match keywords ["schema"] l, keywords ["table"] l, keywords ["index"] l,
        keywords ["sequence"] l, keywords ["view"] l, keywords ["function"] l with
  | Some l, _, _, _, _, _ => name l ≫= fun '(n, l) => nothing_left l ≫= fun _ => Some (DoDropSchema n)
  | _, Some l, _, _, _, _ => dropped DoDropTable l
  | _, _, Some l, _, _, _ => dropped DoDropIndex l
  | _, _, _, Some l, _, _ => dropped DoDropSequence l
  | _, _, _, _, Some l, _ => dropped DoDropView l
  | _, _, _, _, _, Some l => dropped DoDropFunction l
  | _, _, _, _, _, _ => None
  end.
Definition statement_of (l : list token) : option statement :=
  match keywords ["create"] l, keywords ["drop"] l, keywords ["alter"; "table"] l with
  | Some l, _, _ => create_of l
  | _, Some l, _ => drop_of l
  | _, _, Some l => qualified_name l ≫= fun '(s, t, l) => table_action_of l ≫= fun a => Some (DoAlterTable s t a)
  | _, _, _ => None
  end.
(** One statement, perhaps with a semicolon at the end. *)
Definition is_semicolon (t : token) : bool := match t with Sym c => (c =? 59)%N | _ => false end.
Definition one_statement (l : list token) : option (list token) :=
  let l := match rev l with t :: r => if is_semicolon t then rev r else l | [] => [] end in
  if existsb is_semicolon l then None else Some l.
Definition read_statement (sql : str) : option statement :=
  lex sql ≫= fun l => one_statement l ≫= statement_of.
