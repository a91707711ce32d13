(** Specification vocabulary for SQL text: how SQL reads identifiers, column options and
    constraint attributes. *)
From Verif Require Import Base Text Types Changes.

(** ** Identifiers *)

(** What follows an opening double quote: the name up to the closing quote, where two
    quotes stand for one, and the rest of the text. *)
Fixpoint quoted_body (s : str) : option (str * str) :=
  match s with
  | [] => None
  | c :: s' =>
      if decide (c = 34%N) then
        match s' with
        | c' :: s'' => if decide (c' = 34%N)
                       then prod_map (cons 34%N) id <$> quoted_body s''
                       else Some ([], s')
        | [] => Some ([], [])
        end
      else prod_map (cons c) id <$> quoted_body s'
  end.
(** A quoted identifier; it must not be empty. *)
Definition read_quoted (s : str) : option (str * str) :=
  match s with
  | c :: s' => if decide (c = 34%N)
               then match quoted_body s' with Some ([], _) | None => None | r => r end
               else None
  | [] => None
  end.
(** A qualified name: two quoted identifiers with a dot between. *)
Definition read_qualified (s : str) : option (str * str * str) :=
  match read_quoted s with
  | Some (a, c :: s') =>
      if decide (c = 46%N) then (fun r => (a, r.1, r.2)) <$> read_quoted s' else None
  | _ => None
  end.

(** Characters of an identifier without quotes; PostgreSQL folds A-Z to lower case. *)
Definition ident_start (c : N) : bool :=
  ((97 <=? c) && (c <=? 122))%N || ((65 <=? c) && (c <=? 90))%N || (c =? 95)%N || (128 <=? c)%N.
Definition ident_cont (c : N) : bool :=
  ident_start c || ((48 <=? c) && (c <=? 57))%N || (c =? 36)%N.
Definition fold_case (c : N) : N := if ((65 <=? c) && (c <=? 90))%N then (c + 32)%N else c.
(** Words that cannot be the name of a schema without quotes (PostgreSQL 14, appendix C:
    reserved, and reserved except as function or type names). *)
Definition reserved : list str :=
  L <$> ["all"; "analyse"; "analyze"; "and"; "any"; "array"; "as"; "asc"; "asymmetric";
   "authorization"; "binary"; "both"; "case"; "cast"; "check"; "collate"; "collation"; "column";
   "concurrently"; "constraint"; "create"; "cross"; "current_catalog"; "current_date";
   "current_role"; "current_schema"; "current_time"; "current_timestamp"; "current_user";
   "default"; "deferrable"; "desc"; "distinct"; "do"; "else"; "end"; "except"; "false"; "fetch";
   "for"; "foreign"; "freeze"; "from"; "full"; "grant"; "group"; "having"; "ilike"; "in";
   "initially"; "inner"; "intersect"; "into"; "is"; "isnull"; "join"; "lateral"; "leading";
   "left"; "like"; "limit"; "localtime"; "localtimestamp"; "natural"; "not"; "notnull"; "null";
   "offset"; "on"; "only"; "or"; "order"; "outer"; "overlaps"; "placing"; "primary";
   "references"; "returning"; "right"; "select"; "session_user"; "similar"; "some"; "symmetric";
   "table"; "tablesample"; "then"; "to"; "trailing"; "true"; "union"; "unique"; "user"; "using";
   "variadic"; "verbose"; "when"; "where"; "window"; "with"]%string.
Fixpoint span_ident (s : str) : str * str :=
  match s with
  | [] => ([], [])
  | c :: s' => if ident_cont c then let '(a, b) := span_ident s' in (c :: a, b) else ([], s)
  end.
Definition read_unquoted (s : str) : option (str * str) :=
  match s with
  | c :: _ =>
      if ident_start c then
        let '(w, r) := span_ident s in
        let w := fold_case <$> w in
        if decide (w ∈ reserved) then None else Some (w, r)
      else None
  | [] => None
  end.

(** Names that can be written between quotes as they are. *)
Definition quotable (n : str) : Prop := n <> [] /\ 34%N ∉ n.
(** Names that can be written without quotes. *)
Definition is_upper (c : N) : Prop := (65 <= c <= 90)%N.
Definition wordlike (n : str) : Prop :=
  (exists c r, n = c :: r /\ ident_start c = true) /\ Forall (fun c => ident_cont c = true) n /\
  Forall (fun c => ~ is_upper c) n /\ n ∉ reserved.

(** The name of the object a statement is about: the first quoted name in it, or the one
    after [ON] for the creation of an index. *)
Fixpoint from_quote (s : str) : str :=
  match s with
  | [] => []
  | c :: s' => if decide (c = 34%N) then s else from_quote s'
  end.
Definition read_object (s : str) : option (str * str) :=
  fst <$> read_qualified (from_quote s).
Definition read_created_index (s : str) : option (str * (str * str)) :=
  match read_quoted (from_quote s) with
  | Some (i, r) => (fun x => (i, x.1)) <$> read_qualified (from_quote r)
  | None => None
  end.

(** The schema and the relation (or function) a change is about. *)
Definition change_object (c : change) : option (str * str) :=
  match c with
  | AddCheck s t _ _ _ _ | AddColumn s t _ _ _ _ | AddForeignKey s t _ _ _ _ _ _ _ _ _ _
  | AddPrimaryKey s t _ _ _ _ | AddUnique s t _ _ _ _ | AlterCheck s t _ _ _
  | AlterColumnSetDataType s t _ _ | AlterColumnSetDefault s t _ _ | AlterColumnSetNotNull s t _ _
  | AlterForeignKey s t _ _ _ | AlterPrimaryKey s t _ _ _ | AlterUnique s t _ _ _
  | DropCheck s t _ | DropColumn s t _ | DropForeignKey s t _ | DropPrimaryKey s t _
  | DropUnique s t _ | RenameColumn s t _ _
  | CreateFunction s t _ _ _ _ | CreateSequence s t _ _ _ _ _ _ _ | CreateTable s t _
  | CreateView s t _ | DropFunction s t | DropIndex s t | DropSequence s t | DropTable s t
  | DropView s t => Some (s, t)
  | CreateIndex _ _ _ _ _ _ | CreateSchema _ | DropSchema _ => None
  end.

(** ** Columns *)

(** [NOT NULL], or [NULL] or nothing. *)
Inductive null_option : bool -> str -> Prop :=
  | no_not_null : null_option true (L " NOT NULL")
  | no_null : null_option false (L " NULL")
  | no_none : null_option false [].
Definition default_option (d : option str) : str :=
  match d with Some d => L " DEFAULT " ++ d | None => [] end.
(** The text of a column, with its options in either order. *)
Definition column_text (name ty : str) (notnull : bool) (default : option str) (text : str) : Prop :=
  exists o, null_option notnull o /\
    (text = L """" ++ name ++ L """ " ++ ty ++ o ++ default_option default \/
     text = L """" ++ name ++ L """ " ++ ty ++ default_option default ++ o).
Definition qualified (s t : str) : str := L """" ++ s ++ L """.""" ++ t ++ L """".
Definition adds_column (s t name ty : str) (notnull : bool) (default : option str) (sql : str) : Prop :=
  exists text, column_text name ty notnull default text /\
    sql = L "ALTER TABLE " ++ qualified s t ++ L " ADD COLUMN " ++ text ++ L ";".
(** The columns of a new table, separated by commas. *)
Inductive column_texts : list create_table_column -> str -> Prop :=
  | ct_nil : column_texts [] []
  | ct_one c text :
      column_text (cc_name c) (cc_type c) (cc_notnull c) (cc_default c) text ->
      column_texts [c] text
  | ct_cons c cs text rest :
      column_text (cc_name c) (cc_type c) (cc_notnull c) (cc_default c) text ->
      cs <> [] -> column_texts cs rest -> column_texts (c :: cs) (text ++ L ", " ++ rest).
Definition creates_table (s t : str) (cs : list create_table_column) (sql : str) : Prop :=
  exists text, column_texts cs text /\
    sql = L "CREATE TABLE " ++ qualified s t ++ L " (" ++ text ++ L ");".
Definition sets_nullability (s t n : str) (notnull : bool) (sql : str) : Prop :=
  sql = L "ALTER TABLE " ++ qualified s t ++ L " ALTER COLUMN """ ++ n ++ L """ " ++
        (if notnull then L "SET NOT NULL;" else L "DROP NOT NULL;").

(** Texts without double quotes. *)
Definition unquoted_column (c : create_table_column) : Prop :=
  34%N ∉ cc_name c /\ 34%N ∉ cc_type c /\ (forall d, cc_default c = Some d -> 34%N ∉ d).

(** ** Attributes of constraints *)

(** What a statement says of deferral: read from its end, [[NOT] DEFERRABLE] and
    [INITIALLY DEFERRED | IMMEDIATE]; by default neither. *)
Definition ends_with (p s : str) : option str :=
  if starts_with (reverse p) (reverse s) then Some (take (length s - length p) s) else None.
Definition read_deferrable (s : str) : bool :=
  match ends_with (L " NOT DEFERRABLE") s, ends_with (L " DEFERRABLE") s with
  | None, Some _ => true
  | _, _ => false
  end.
Definition read_deferral (sql : str) : bool * bool :=
  let s := match ends_with (L ";") sql with Some s => s | None => sql end in
  match ends_with (L " INITIALLY DEFERRED") s with
  | Some s => (read_deferrable s, true)
  | None => match ends_with (L " INITIALLY IMMEDIATE") s with
            | Some s => (read_deferrable s, false)
            | None => (read_deferrable s, false)
            end
  end.
(** The attributes a change gives to a constraint. *)
Definition change_deferral (c : change) : option (bool * bool) :=
  match c with
  | AddCheck _ _ _ _ d i | AddForeignKey _ _ _ _ _ _ _ _ _ _ d i | AddPrimaryKey _ _ _ _ d i
  | AddUnique _ _ _ _ d i | AlterCheck _ _ _ d i | AlterForeignKey _ _ _ d i
  | AlterPrimaryKey _ _ _ d i | AlterUnique _ _ _ d i => Some (d, i)
  | _ => None
  end.
(** The rules of a foreign key, and its match options. *)
Definition match_options : list str := L <$> ["FULL"; "PARTIAL"; "SIMPLE"]%string.
Definition rules : list str := L <$> ["NO ACTION"; "RESTRICT"; "CASCADE"; "SET NULL"; "SET DEFAULT"]%string.
(** The text of a check does not end in [NOT]; the rule on deletion is a known one. *)
Definition words (s : str) : list str := split_on 32 s.
Definition constraint_text_plain (c : change) : Prop :=
  match c with
  | AddCheck _ _ _ e _ _ => last (words e) <> Some (L "NOT")
  | AddForeignKey _ _ _ _ _ _ _ _ _ d _ _ => d ∈ rules
  | _ => True
  end.
(** The changes whose SQL says the right thing. *)
Definition deferral_stated (c : change) : Prop :=
  match c with
  | AddForeignKey _ _ _ _ _ _ _ _ _ _ d i => d = false /\ i = false
  | AlterForeignKey _ _ _ d i | AlterCheck _ _ _ d i => d = i
  | _ => True
  end.

(** ** Telling changes apart *)

(** The free text of a statement cannot be taken for the keywords around it. *)
Definition plain_change (c : change) : Prop :=
  match c with
  | AddCheck s t n e _ _ =>
      34%N ∉ s /\ 34%N ∉ t /\ 34%N ∉ n /\ last (words e) <> Some (L "NOT")
  | AddColumn s t n ty _ _ =>
      34%N ∉ s /\ 34%N ∉ t /\ 34%N ∉ n /\ L "NOT" ∉ words ty /\ L "DEFAULT" ∉ words ty
  | AddForeignKey s t n cs ts t2 tcs m u d _ _ =>
      34%N ∉ s /\ 34%N ∉ t /\ 34%N ∉ n /\ Forall (fun x => 34%N ∉ x) cs /\ 34%N ∉ ts /\ 34%N ∉ t2 /\
      Forall (fun x => 34%N ∉ x) tcs /\ m ∈ match_options /\ u ∈ rules /\ d ∈ rules
  | AddPrimaryKey s t n cs _ _ | AddUnique s t n cs _ _ =>
      34%N ∉ s /\ 34%N ∉ t /\ 34%N ∉ n /\ Forall (fun x => 34%N ∉ x) cs
  | AlterCheck s t n _ _ | AlterForeignKey s t n _ _ | AlterPrimaryKey s t n _ _
  | AlterUnique s t n _ _ | AlterColumnSetDataType s t n _ | AlterColumnSetDefault s t n _
  | AlterColumnSetNotNull s t n _ | DropCheck s t n | DropColumn s t n | DropForeignKey s t n
  | DropPrimaryKey s t n | DropUnique s t n => 34%N ∉ s /\ 34%N ∉ t /\ 34%N ∉ n
  | RenameColumn s t n n' => 34%N ∉ s /\ 34%N ∉ t /\ 34%N ∉ n /\ 34%N ∉ n'
  | CreateFunction s f _ lang ret vol =>
      34%N ∉ s /\ 34%N ∉ f /\ 32%N ∉ lang /\ 32%N ∉ vol /\ L "RETURNS" ∉ words ret
  | CreateIndex s t n _ m _ => 34%N ∉ s /\ 34%N ∉ t /\ 34%N ∉ n /\ 32%N ∉ m
  | CreateTable s t cs => 34%N ∉ s /\ 34%N ∉ t /\
      Forall (fun c => unquoted_column c /\ L "NULL" ∉ words (cc_type c) /\ L "DEFAULT" ∉ words (cc_type c)) cs
  | CreateSequence s t _ _ _ _ _ _ _ | CreateView s t _ | DropFunction s t | DropIndex s t
  | DropSequence s t | DropTable s t | DropView s t => 34%N ∉ s /\ 34%N ∉ t
  | CreateSchema _ | DropSchema _ => True
  end.

(** What the text does not tell: the kind of a constraint that is altered or dropped (but
    for foreign keys), the deferral of a foreign key, and how the key expressions of an
    index are cut. *)
Definition sql_image (c : change) : change :=
  match c with
  | AddForeignKey s t n cs ts t2 tcs m u d _ _ => AddForeignKey s t n cs ts t2 tcs m u d false false
  | AlterCheck s t n d _ => AlterForeignKey s t n d false
  | AlterForeignKey s t n d _ => AlterForeignKey s t n d false
  | AlterUnique s t n d i => AlterPrimaryKey s t n d i
  | DropCheck s t n | DropUnique s t n => DropPrimaryKey s t n
  | CreateIndex s t n u m ks => CreateIndex s t n u m [join_with (L ", ") ks]
  | c => c
  end.
