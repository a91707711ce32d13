(** A reader that recovers a change from its SQL, up to what the text does not tell. *)
From Verif Require Import Base Text Types Changes Sql SpecSql TextLemmas SqlLemmas.

Ltac by_not := apply (bool_decide_unpack _); vm_compute; exact I.

Fixpoint choose (l : list (str * (str -> option change))) (s : str) : option change :=
  match l with
  | [] => None
  | (p, f) :: l => match strip p s with Some r => f r | None => choose l s end
  end.
Lemma choose_take p f l r : choose ((p, f) :: l) (p ++ r) = f r.
Proof. cbn [choose]. by rewrite strip_app. Qed.
Lemma choose_skip p f l s : strip p s = None -> choose ((p, f) :: l) s = choose l s.
Proof. cbn [choose]. by intros ->. Qed.
Ltac pick := repeat first [rewrite choose_take; cbv beta | rewrite choose_skip by reflexivity].

(** Attributes of constraints. *)
Definition attrs_text (d i : bool) : str := L " " ++ sql_deferrable d ++ L " " ++ sql_initially i ++ L ";".
Definition get_attrs (s : str) : option (bool * bool) :=
  if decide (s = attrs_text true true) then Some (true, true)
  else if decide (s = attrs_text true false) then Some (true, false)
  else if decide (s = attrs_text false true) then Some (false, true)
  else if decide (s = attrs_text false false) then Some (false, false)
  else None.
Lemma get_attrs_text d i : get_attrs (attrs_text d i) = Some (d, i).
Proof. by destruct d, i. Qed.

(** The words of a check, in reverse. *)
Definition get_check (l : list str) : option (str * bool * bool) :=
  match l with
  | x :: _ :: _ :: rest =>
      let i := bool_decide (x = L "DEFERRED") in
      match rest with
      | w :: rest' => if decide (w = L "NOT") then Some (join_with (L " ") (reverse rest'), false, i)
                      else Some (join_with (L " ") (reverse rest), true, i)
      | [] => None
      end
  | _ => None
  end.
Lemma words_deferrable d : words (sql_deferrable d) = if d then [L "DEFERRABLE"] else [L "NOT"; L "DEFERRABLE"].
Proof. by destruct d. Qed.
Lemma words_initially i : words (sql_initially i) = [L "INITIALLY"; if i then L "DEFERRED" else L "IMMEDIATE"].
Proof. by destruct i. Qed.
Lemma get_check_text e d i :
  last (words e) <> Some (L "NOT") ->
  get_check (reverse (words (e ++ L " " ++ sql_deferrable d ++ L " " ++ sql_initially i))) = Some (e, d, i).
Proof.
  intros He. rewrite !words_app, words_deferrable, words_initially.
  destruct (words e) as [|w ws _] eqn:Ew using rev_ind; [by destruct (split_on_nonempty 32 e)|].
  rewrite last_snoc in He. assert (w <> L "NOT") as Hw by congruence. clear He.
  rewrite !reverse_app.
  assert (bool_decide ((if i then L "DEFERRED" else L "IMMEDIATE") = L "DEFERRED") = i) as Hi by (by destruct i).
  destruct d; cbn -[L words sql_initially reverse bool_decide decide].
  - change (reverse [w]) with [w]. change (reverse [L "DEFERRABLE"]) with [L "DEFERRABLE"].
    change (reverse [L "INITIALLY"; if i then L "DEFERRED" else L "IMMEDIATE"]) with
      [if i then L "DEFERRED" else L "IMMEDIATE"; L "INITIALLY"].
    cbn -[L words reverse bool_decide decide]. rewrite Hi, decide_False by done.
    rewrite reverse_cons, reverse_involutive, <- Ew. by rewrite words_join.
  - change (reverse [w]) with [w]. change (reverse [L "NOT"; L "DEFERRABLE"]) with [L "DEFERRABLE"; L "NOT"].
    change (reverse [L "INITIALLY"; if i then L "DEFERRED" else L "IMMEDIATE"]) with
      [if i then L "DEFERRED" else L "IMMEDIATE"; L "INITIALLY"].
    cbn -[L words reverse bool_decide decide]. rewrite Hi, decide_True by done.
    rewrite reverse_cons, reverse_involutive, <- Ew. by rewrite words_join.
Qed.

(** The options of a column: the words after the name; [w] is [NOT NULL] or [NULL]. *)
Definition get_options (null : list str) (l : list str) : option (str * bool * option str) :=
  let '(ty, rest) := until [default [] (head null); L "DEFAULT"] l in
  let '(b, rest) := if decide (take (length null) rest = null) then (true, drop (length null) rest)
                    else (false, rest) in
  match rest with
  | [] => Some (join_with (L " ") ty, b, None)
  | _ :: d => Some (join_with (L " ") ty, b, Some (join_with (L " ") d))
  end.
Lemma get_options_text null ty (b : bool) d :
  (null = [L "NOT"; L "NULL"] \/ null = [L "NULL"]) ->
  default [] (head null) ∉ words ty -> L "DEFAULT" ∉ words ty ->
  get_options null (words ty ++ (if b then null else []) ++
    match d with Some d => L "DEFAULT" :: words d | None => [] end) = Some (ty, b, d).
Proof.
  intros Hnull H1 H2. unfold get_options. rewrite until_app.
  - assert (forall d' : option str, match d' with Some d => Some (ty, b, Some d) | None => Some (ty, b, None) end =
      Some (ty, b, d')) as Hd by (by intros []).
    destruct Hnull as [-> | ->], b, d as [d|]; simpl; by rewrite ?words_join.
  - apply Forall_forall. intros w Hw. rewrite not_elem_of_cons, elem_of_list_singleton.
    split; intros ->; done.
  - intros w. destruct Hnull as [-> | ->], b, d as [d|]; simpl; intros [= <-];
      rewrite elem_of_cons, elem_of_list_singleton; auto.
Qed.
Lemma add_column_words ty nn d :
  words (join_with (L " ") (ty :: add_column_tokens nn d)) =
  words ty ++ (if negb nn then [L "NOT"; L "NULL"] else []) ++
    match d with Some d => L "DEFAULT" :: words d | None => [] end.
Proof.
  destruct nn, d as [d|]; unfold add_column_tokens; simpl negb; cbn [app join_with].
  - rewrite words_app. done.
  - by rewrite app_nil_r.
  - rewrite !words_app. done.
  - rewrite words_app. done.
Qed.

(** The columns of a table, after the opening bracket. *)
Definition column_of (n : str) (p : str) : option create_table_column :=
  '(ty, b, d) ← get_options [L "NULL"] (words (drop_last 2 p));
  Some (CreateTableColumn n ty (negb b) d).
Fixpoint get_columns (fuel : nat) (s : str) : option (list create_table_column) :=
  match fuel with
  | O => None
  | S fuel =>
      '(n, r) ← get_qn s; r ← strip (L " ") r;
      match cut 34 r with
      | None => c ← column_of n r; Some [c]
      | Some (p, r) => c ← column_of n p; cs ← get_columns fuel (34%N :: r); Some (c :: cs)
      end
  end.
Definition get_table_columns (s : str) : option (list create_table_column) :=
  if decide (s = L ");") then Some [] else get_columns (length s) s.

Definition column_tail (c : create_table_column) : str :=
  join_with (L " ") ([cc_type c] ++ (if negb (cc_notnull c) then [L "NULL"] else []) ++
     match cc_default c with Some d => [L "DEFAULT " ++ d] | None => [] end).
Lemma create_table_column_tail c : create_table_column_sql c = sql_qn (cc_name c) ++ L " " ++ column_tail c.
Proof. done. Qed.
Lemma column_tail_words c :
  words (column_tail c) = words (cc_type c) ++ (if negb (cc_notnull c) then [L "NULL"] else []) ++
    match cc_default c with Some d => L "DEFAULT" :: words d | None => [] end.
Proof.
  unfold column_tail. destruct (cc_notnull c), (cc_default c) as [d|]; simpl negb; cbn [app join_with].
  - rewrite words_app. done.
  - by rewrite app_nil_r.
  - rewrite !words_app. done.
  - rewrite words_app. done.
Qed.
Definition table_column_plain (c : create_table_column) : Prop :=
  unquoted_column c /\ L "NULL" ∉ words (cc_type c) /\ L "DEFAULT" ∉ words (cc_type c).
Lemma column_of_tail c p :
  table_column_plain c -> length p = 2 -> column_of (cc_name c) (column_tail c ++ p) = Some c.
Proof.
  intros (_ & H1 & H2) Hp. unfold column_of. rewrite drop_last_app by done. rewrite column_tail_words.
  rewrite get_options_text by auto. sb. rewrite negb_involutive. by destruct c.
Qed.
Lemma not_elem_app (c : N) a b : c ∉ a -> c ∉ b -> c ∉ a ++ b.
Proof. rewrite not_elem_of_app. auto. Qed.
Lemma column_tail_unquoted c : unquoted_column c -> 34%N ∉ column_tail c.
Proof.
  intros (_ & H1 & H2). assert (34%N ∉ L " ") as Hs by (by_not). unfold column_tail.
  assert (34%N ∉ L "NULL") as Hn by (by_not). assert (34%N ∉ L "DEFAULT ") as Hd by (by_not).
  destruct (cc_notnull c), (cc_default c) as [d|]; simpl negb; cbn [app join_with];
    repeat apply not_elem_app; auto.
Qed.
Definition columns_text (cs : list create_table_column) : str := sql_l (create_table_column_sql <$> cs).
Lemma columns_text_cons a b cs :
  columns_text (a :: b :: cs) = create_table_column_sql a ++ L ", " ++ columns_text (b :: cs).
Proof. done. Qed.
Lemma columns_text_head c cs : exists r, columns_text (c :: cs) = 34%N :: r.
Proof. destruct cs; by eexists. Qed.
Lemma columns_text_length c cs : length cs < length (columns_text (c :: cs)).
Proof.
  revert c. induction cs as [|b cs IH]; intros c.
  - destruct (columns_text_head c []) as [r ->]. simpl. lia.
  - rewrite columns_text_cons, !app_length. specialize (IH b).
    assert (length (L ", ") = 2) as -> by done. cbn [length]. lia.
Qed.
Lemma get_columns_text c cs fuel :
  length cs < fuel -> Forall table_column_plain (c :: cs) ->
  get_columns fuel (columns_text (c :: cs) ++ L ");") = Some (c :: cs).
Proof.
  revert c fuel. induction cs as [|b cs IH]; intros c [|fuel] Hl [Hc Hcs]%Forall_cons;
    simpl in Hl; try lia; cbn [get_columns].
  - change (columns_text [c]) with (create_table_column_sql c). rewrite create_table_column_tail.
    rewrite <- !(assoc_L (++)). rewrite get_qn_app by (by destruct Hc as [[? _] _]). sb. rewrite strip_app. sb.
    rewrite cut_None.
    + rewrite column_of_tail by done. by sb.
    + apply not_elem_app; [apply column_tail_unquoted, Hc|by_not].
  - rewrite columns_text_cons, create_table_column_tail. rewrite <- !(assoc_L (++)).
    rewrite get_qn_app by (by destruct Hc as [[? _] _]). sb. rewrite strip_app. sb.
    destruct (columns_text_head b cs) as [r Hr]. rewrite Hr. cbn [app].
    rewrite (assoc_L (++)). rewrite cut_app.
    + rewrite column_of_tail by done. sb. specialize (IH b fuel). rewrite Hr in IH.
      cbn [app] in IH. rewrite IH; [by sb|lia|done].
    + apply not_elem_app; [apply column_tail_unquoted, Hc|by_not].
Qed.
Lemma get_table_columns_text cs :
  Forall table_column_plain cs -> get_table_columns (columns_text cs ++ L ");") = Some cs.
Proof.
  intros H. unfold get_table_columns. destruct cs as [|c cs].
  - by rewrite decide_True.
  - rewrite decide_False.
    + apply get_columns_text; [|done]. rewrite app_length. pose proof (columns_text_length c cs). lia.
    + destruct (columns_text_head c cs) as [r ->]. done.
Qed.

(** The rules of a foreign key. *)
Definition rules_text (m u d : str) : str := L " " ++ m ++ L " " ++ u ++ L " " ++ d ++ L ";".
Definition all_rules : list (str * str * str) :=
  m ← match_options; u ← rules; d ← rules; [(m, u, d)].
Definition get_rules (s : str) : option (str * str * str) :=
  head (filter (fun '(m, u, d) => rules_text m u d = s) all_rules).
Lemma get_rules_text m u d : m ∈ match_options -> u ∈ rules -> d ∈ rules ->
  get_rules (rules_text m u d) = Some (m, u, d).
Proof.
  intros Hm Hu Hd.
  assert (Forall (fun m => Forall (fun u => Forall (fun d => get_rules (rules_text m u d) = Some (m, u, d)) rules)
    rules) match_options) as H by (apply (bool_decide_unpack _); vm_compute; exact I).
  rewrite Forall_forall in H. specialize (H m Hm). rewrite Forall_forall in H. specialize (H u Hu).
  rewrite Forall_forall in H. exact (H d Hd).
Qed.

(** Functions, as words in reverse. *)
Definition get_function (l : list str) : option (str * str * str * str) :=
  match l with
  | vol :: lang :: _ :: rest =>
      let '(ret, rest) := until [L "RETURNS"] rest in
      match rest with
      | _ :: body => Some (join_with (L " ") (reverse body), lang, join_with (L " ") (reverse ret), vol)
      | [] => None
      end
  | _ => None
  end.
Lemma get_function_text body lang ret vol :
  32%N ∉ lang -> 32%N ∉ vol -> L "RETURNS" ∉ words ret ->
  get_function (reverse (words (body ++ L " RETURNS " ++ ret ++ L " LANGUAGE " ++ lang ++ L " " ++ vol))) =
  Some (body, lang, ret, vol).
Proof.
  intros H1 H2 H3.
  change (L " RETURNS ") with (L " " ++ L "RETURNS" ++ L " ").
  change (L " LANGUAGE ") with (L " " ++ L "LANGUAGE" ++ L " "). rewrite <- !(assoc_L (++)).
  rewrite !words_app. rewrite (words_one lang), (words_one vol) by done.
  change (words (L "RETURNS")) with [L "RETURNS"]. change (words (L "LANGUAGE")) with [L "LANGUAGE"].
  rewrite !reverse_app. change (reverse [vol]) with [vol]. change (reverse [lang]) with [lang].
  change (reverse [L "LANGUAGE"]) with [L "LANGUAGE"]. change (reverse [L "RETURNS"]) with [L "RETURNS"].
  rewrite <- !(assoc_L (++)). cbn [app get_function].
  rewrite until_app.
  - rewrite !reverse_involutive, !words_join. done.
  - apply Forall_forall. intros w Hw ->%elem_of_list_singleton. by rewrite elem_of_reverse in Hw.
  - intros w [= <-]. by apply elem_of_list_singleton.
Qed.

(** Sequences, as words in reverse. *)
Definition get_sequence (l : list str) : option (str * Z * Z * Z * Z * Z * bool) :=
  match l with
  | _ :: x :: rest =>
      let '(cy, rest) := if decide (x = L "NO") then (false, rest) else (true, x :: rest) in
      match rest with
      | ca :: _ :: st :: _ :: _ :: mx :: _ :: mn :: _ :: inc :: _ :: _ :: ty =>
          Some (join_with (L " ") (reverse ty), read_int inc, read_int mn, read_int mx,
                read_int st, read_int ca, cy)
      | _ => None
      end
  | _ => None
  end.
Lemma show_not_no z : show_int z <> L "NO".
Proof.
  unfold show_int. destruct (Z.to_int z) as [u|u]; [|done]. intros H.
  pose proof (digits_range u) as K. rewrite H in K. inversion K as [|? ? K1]; subst. simpl in K1. lia.
Qed.
Lemma get_sequence_text ty inc mn mx st ca (cy : bool) :
  get_sequence (reverse (words (ty ++ L " INCREMENT BY " ++ show_int inc ++
      L " MINVALUE " ++ show_int mn ++ L " MAXVALUE " ++ show_int mx ++ L " START WITH " ++
      show_int st ++ L " CACHE " ++ show_int ca ++ L " " ++ (if cy then L "CYCLE" else L "NO CYCLE")))) =
  Some (ty, inc, mn, mx, st, ca, cy).
Proof.
  change (L " INCREMENT BY ") with (L " " ++ L "INCREMENT" ++ L " " ++ L "BY" ++ L " ").
  change (L " MINVALUE ") with (L " " ++ L "MINVALUE" ++ L " ").
  change (L " MAXVALUE ") with (L " " ++ L "MAXVALUE" ++ L " ").
  change (L " START WITH ") with (L " " ++ L "START" ++ L " " ++ L "WITH" ++ L " ").
  change (L " CACHE ") with (L " " ++ L "CACHE" ++ L " ").
  rewrite <- !(assoc_L (++)). rewrite !words_app.
  rewrite !(words_one (show_int _)) by apply show_int_no_space.
  change (words (L "INCREMENT")) with [L "INCREMENT"]. change (words (L "BY")) with [L "BY"].
  change (words (L "MINVALUE")) with [L "MINVALUE"]. change (words (L "MAXVALUE")) with [L "MAXVALUE"].
  change (words (L "START")) with [L "START"]. change (words (L "WITH")) with [L "WITH"].
  change (words (L "CACHE")) with [L "CACHE"].
  assert (words (if cy then L "CYCLE" else L "NO CYCLE") = (if cy then [] else [L "NO"]) ++ [L "CYCLE"]) as ->.
  { by destruct cy. }
  assert (forall a : str, reverse [a] = [a]) as Hr by done.
  rewrite !reverse_app, !Hr. rewrite <- !(assoc_L (++)).
  destruct cy; [change (reverse (@nil str)) with (@nil str)|rewrite Hr]; cbn [app get_sequence].
  - rewrite decide_False by apply show_not_no. rewrite !read_show, reverse_involutive, words_join. done.
  - rewrite decide_True by done. rewrite !read_show, reverse_involutive, words_join. done.
Qed.

(** ** The reader *)
Definition unsemi : str -> str := drop_last 1.
Lemma unsemi_app s : unsemi (s ++ L ";") = s.
Proof. by apply drop_last_app. Qed.

Definition decode_added (a b n : str) : str -> option change := choose
  [(L " CHECK ", fun s => '(e, d, i) ← get_check (reverse (words (unsemi s))); Some (AddCheck a b n e d i));
   (L " PRIMARY KEY (", fun s => '(cs, s) ← get_ql s; '(d, i) ← get_attrs s; Some (AddPrimaryKey a b n cs d i));
   (L " UNIQUE (", fun s => '(cs, s) ← get_ql s; '(d, i) ← get_attrs s; Some (AddUnique a b n cs d i));
   (L " FOREIGN KEY (", fun s =>
      '(cs, s) ← get_ql s; s ← strip (L " REFERENCES ") s; '(ts, t2, s) ← get_qa s;
      s ← strip (L " (") s; '(tcs, s) ← get_ql s; '(m, u, d) ← get_rules s;
      Some (AddForeignKey a b n cs ts t2 tcs m u d false false))].
Definition decode_column (a b n : str) : str -> option change := choose
  [(L " SET DATA TYPE ", fun s => Some (AlterColumnSetDataType a b n (unsemi s)));
   (L " SET DEFAULT ", fun s => Some (AlterColumnSetDefault a b n (Some (unsemi s))));
   (L " DROP DEFAULT;", fun s => Some (AlterColumnSetDefault a b n None));
   (L " SET NOT NULL;", fun s => Some (AlterColumnSetNotNull a b n true));
   (L " DROP NOT NULL;", fun s => Some (AlterColumnSetNotNull a b n false))].
Definition altered_text (d : bool) : str :=
  L " " ++ (if d then L "DEFERRABLE INITIALLY DEFERRED" else L "NOT DEFERRABLE INITIALLY IMMEDIATE").
Definition decode_altered (a b n s : str) : option change :=
  if decide (s = altered_text true) then Some (AlterForeignKey a b n true false)
  else if decide (s = altered_text false) then Some (AlterForeignKey a b n false false)
  else '(d, i) ← get_attrs s; Some (AlterPrimaryKey a b n d i).
Definition named (f : str -> str -> option change) (s : str) : option change :=
  s ← strip (L " ") s; '(n, s) ← get_qn s; f n s.
Definition decode_alter (a b : str) : str -> option change := choose
  [(L "ADD CONSTRAINT", named (fun n => decode_added a b n));
   (L "ADD COLUMN", named (fun n s => s ← strip (L " ") s;
      '(ty, nb, d) ← get_options [L "NOT"; L "NULL"] (words (unsemi s)); Some (AddColumn a b n ty (negb nb) d)));
   (L "ALTER CONSTRAINT", named (decode_altered a b));
   (L "ALTER COLUMN", named (decode_column a b));
   (L "DROP CONSTRAINT", named (fun n s => if decide (s = []) then Some (DropForeignKey a b n)
                                           else Some (DropPrimaryKey a b n)));
   (L "DROP COLUMN", named (fun n s => Some (DropColumn a b n)));
   (L "RENAME COLUMN", named (fun n s => s ← strip (L " TO ") s; '(n', _) ← get_qn s;
                                         Some (RenameColumn a b n n')))].
Definition decode_index (u : bool) (s : str) : option change :=
  s ← strip (L " ") s; '(n, s) ← get_qn s; s ← strip (L " ON ") s; '(a, b, s) ← get_qa s;
  s ← strip (L " USING ") s; '(m, s) ← cut 32 s; s ← strip (L "(") s;
  Some (CreateIndex a b n u m [drop_last 2 s]).
Definition decode : str -> option change := choose
  [(L "ALTER TABLE ", fun s => '(a, b, s) ← get_qa s; s ← strip (L " ") s; decode_alter a b s);
   (L "CREATE FUNCTION ", fun s => '(a, b, s) ← get_qa s; s ← strip (L " ") s;
      '(body, lang, ret, vol) ← get_function (reverse (words (unsemi s)));
      Some (CreateFunction a b body lang ret vol));
   (L "CREATE UNIQUE INDEX", decode_index true);
   (L "CREATE INDEX", decode_index false);
   (L "CREATE SCHEMA ", fun s => Some (CreateSchema (unsemi s)));
   (L "CREATE SEQUENCE ", fun s => '(a, b, s) ← get_qa s; s ← strip (L " AS ") s;
      '(ty, inc, mn, mx, st, ca, cy) ← get_sequence (reverse (words (unsemi s)));
      Some (CreateSequence a b ty inc mn mx st ca cy));
   (L "CREATE TABLE ", fun s => '(a, b, s) ← get_qa s; s ← strip (L " (") s;
      cs ← get_table_columns s; Some (CreateTable a b cs));
   (L "CREATE VIEW ", fun s => '(a, b, s) ← get_qa s; s ← strip (L " AS ") s; Some (CreateView a b s));
   (L "DROP FUNCTION ", fun s => '(a, b, s) ← get_qa s; Some (DropFunction a b));
   (L "DROP INDEX ", fun s => '(a, b, s) ← get_qa s; Some (DropIndex a b));
   (L "DROP SCHEMA ", fun s => Some (DropSchema (unsemi s)));
   (L "DROP SEQUENCE ", fun s => '(a, b, s) ← get_qa s; Some (DropSequence a b));
   (L "DROP TABLE ", fun s => '(a, b, s) ← get_qa s; Some (DropTable a b));
   (L "DROP VIEW ", fun s => '(a, b, s) ← get_qa s; Some (DropView a b))].

Lemma named_text f n s : 34%N ∉ n -> named f (L " " ++ sql_qn n ++ s) = f n s.
Proof. intros H. unfold named. rewrite strip_app. sb. rewrite get_qn_app by done. by sb. Qed.

Lemma decode_alter_text s t what n r :
  34%N ∉ s -> 34%N ∉ t ->
  decode (alter_table s t what n ++ r) = decode_alter s t (what ++ L " " ++ sql_qn n ++ r).
Proof.
  intros Hs Ht. unfold alter_table, decode. rewrite <- !(assoc_L (++)). rewrite choose_take.
  rewrite get_qa_app by done. sb. rewrite strip_app. by sb.
Qed.

Lemma decode_index_text (u : bool) s t n m ks :
  34%N ∉ s -> 34%N ∉ t -> 34%N ∉ n -> 32%N ∉ m ->
  decode_index u (L " " ++ sql_qn n ++ L " ON " ++ sql_qa s t ++ L " USING " ++ m ++ L " (" ++ ks ++ L ")" ++ L ";") =
  Some (CreateIndex s t n u m [ks]).
Proof.
  intros. unfold decode_index. rewrite strip_app. sb. rewrite get_qn_app by done. sb.
  rewrite strip_app. sb. rewrite get_qa_app by done. sb. rewrite strip_app. sb.
  change (L " (" ++ ks ++ L ")" ++ L ";") with (32%N :: (L "(" ++ ks ++ L ");")).
  rewrite cut_app by done. sb. rewrite strip_app. sb. rewrite drop_last_app by done. done.
Qed.

Lemma join_cons s l : join_with (L " ") (s :: l) = s ++ concat ((fun x => L " " ++ x) <$> l).
Proof.
  revert s. induction l as [|a l IH]; intros s; [by rewrite app_nil_r|].
  change (join_with (L " ") (s :: a :: l)) with (s ++ L " " ++ join_with (L " ") (a :: l)).
  rewrite IH. done.
Qed.
Lemma join_app a b l : join_with (L " ") ((a ++ b) :: l) = a ++ join_with (L " ") (b :: l).
Proof. rewrite !join_cons. by rewrite (assoc_L (++)). Qed.

Theorem decode_render c : plain_change c -> decode (render_sql c) = Some (sql_image c).
Proof.
  assert (forall x, sql_qn x = sql_qn x ++ []) as Hnil by (intros; by rewrite app_nil_r).
  destruct c; cbn [plain_change render_sql sql_image]; intros Hp.
  - destruct Hp as (H1 & H2 & H3 & H4). rewrite decode_alter_text by done. unfold decode_alter. pick.
    rewrite named_text by done. unfold decode_added. pick.
    rewrite !(assoc_L (++)), unsemi_app, <- !(assoc_L (++)). rewrite get_check_text by done. by sb.
  - destruct Hp as (H1 & H2 & H3 & H4 & H5).
    assert (forall a b c : str, (a ++ b ++ c) = (a ++ b) ++ c) as Ha by (intros; by rewrite (assoc_L (++))).
    rewrite Ha, join_app, <- !(assoc_L (++)).
    rewrite decode_alter_text by done. unfold decode_alter. pick.
    rewrite named_text by done. rewrite strip_app. sb. rewrite unsemi_app.
    rewrite add_column_words. rewrite get_options_text by (simpl; auto). sb. by rewrite negb_involutive.
  - destruct Hp as (H1 & H2 & H3 & H4 & H5 & H6 & H7 & H8 & H9 & H10).
    rewrite decode_alter_text by done. unfold decode_alter. pick.
    rewrite named_text by done. unfold decode_added. pick.
    change (L ") REFERENCES ") with (L ")" ++ L " REFERENCES "). rewrite <- !(assoc_L (++)).
    rewrite get_ql_app by done. sb. rewrite strip_app. sb. rewrite get_qa_app by done. sb.
    rewrite strip_app. sb. change (L ") ") with (L ")" ++ L " "). rewrite <- !(assoc_L (++)).
    rewrite get_ql_app by done. sb. fold (rules_text match_option update_rule delete_rule).
    rewrite get_rules_text by done. by sb.
  - destruct Hp as (H1 & H2 & H3 & H4). rewrite decode_alter_text by done. unfold decode_alter. pick.
    rewrite named_text by done. unfold decode_added. pick.
    change (L ") ") with (L ")" ++ L " "). rewrite <- !(assoc_L (++)). rewrite get_ql_app by done. sb.
    fold (attrs_text deferrable initially_deferred). rewrite get_attrs_text. by sb.
  - destruct Hp as (H1 & H2 & H3 & H4). rewrite decode_alter_text by done. unfold decode_alter. pick.
    rewrite named_text by done. unfold decode_added. pick.
    change (L ") ") with (L ")" ++ L " "). rewrite <- !(assoc_L (++)). rewrite get_ql_app by done. sb.
    fold (attrs_text deferrable initially_deferred). rewrite get_attrs_text. by sb.
  - destruct Hp as (H1 & H2 & H3). rewrite decode_alter_text by done. unfold decode_alter. pick.
    rewrite named_text by done. by destruct deferrable.
  - destruct Hp as (H1 & H2 & H3). rewrite decode_alter_text by done. unfold decode_alter. pick.
    rewrite named_text by done. unfold decode_column. pick. by rewrite unsemi_app.
  - destruct Hp as (H1 & H2 & H3). destruct default as [d|];
      rewrite decode_alter_text by done; unfold decode_alter; pick;
      rewrite named_text by done; unfold decode_column.
    + pick. by rewrite unsemi_app.
    + done.
  - destruct Hp as (H1 & H2 & H3). destruct not_null;
      rewrite decode_alter_text by done; unfold decode_alter; pick; by rewrite named_text.
  - destruct Hp as (H1 & H2 & H3). rewrite decode_alter_text by done. unfold decode_alter. pick.
    rewrite named_text by done. by destruct deferrable.
  - destruct Hp as (H1 & H2 & H3). rewrite decode_alter_text by done. unfold decode_alter. pick.
    rewrite named_text by done. by destruct deferrable, initially_deferred.
  - destruct Hp as (H1 & H2 & H3). rewrite decode_alter_text by done. unfold decode_alter. pick.
    rewrite named_text by done. by destruct deferrable, initially_deferred.
  - destruct Hp as (H1 & H2 & H3 & H4 & H5). unfold decode. pick. rewrite get_qa_app by done. sb.
    rewrite strip_app. sb. rewrite !(assoc_L (++)), unsemi_app, <- !(assoc_L (++)).
    rewrite get_function_text by done. by sb.
  - destruct Hp as (H1 & H2 & H3 & H4). unfold decode.
    destruct unique; rewrite (assoc_L (++) (L "CREATE "));
      [change (L "CREATE " ++ L "UNIQUE INDEX") with (L "CREATE UNIQUE INDEX")|
       change (L "CREATE " ++ L "INDEX") with (L "CREATE INDEX")]; pick; by apply decode_index_text.
  - unfold decode. pick. by rewrite unsemi_app.
  - destruct Hp as (H1 & H2). unfold decode. pick. rewrite get_qa_app by done. sb. rewrite strip_app. sb.
    rewrite !(assoc_L (++)), unsemi_app, <- !(assoc_L (++)). rewrite get_sequence_text. by sb.
  - destruct Hp as (H1 & H2 & H3). unfold decode. pick. rewrite get_qa_app by done. sb. rewrite strip_app. sb.
    fold (columns_text columns). rewrite get_table_columns_text by done. by sb.
  - destruct Hp as (H1 & H2). unfold decode. pick. rewrite get_qa_app by done. sb. rewrite strip_app. by sb.
  - destruct Hp as (H1 & H2 & H3). rewrite decode_alter_text by done. unfold decode_alter. pick.
    by rewrite named_text.
  - destruct Hp as (H1 & H2 & H3). rewrite decode_alter_text by done. unfold decode_alter. pick.
    by rewrite named_text.
  - destruct Hp as (H1 & H2 & H3). rewrite <- (app_nil_r (alter_table _ _ _ _)).
    rewrite decode_alter_text by done. unfold decode_alter. pick. by rewrite named_text.
  - destruct Hp as (H1 & H2). unfold decode. pick. rewrite get_qa_app by done. by sb.
  - destruct Hp as (H1 & H2). unfold decode. pick. rewrite get_qa_app by done. by sb.
  - destruct Hp as (H1 & H2 & H3). rewrite decode_alter_text by done. unfold decode_alter. pick.
    by rewrite named_text.
  - unfold decode. pick. by rewrite unsemi_app.
  - destruct Hp as (H1 & H2). unfold decode. pick. rewrite get_qa_app by done. by sb.
  - destruct Hp as (H1 & H2). unfold decode. pick. rewrite get_qa_app by done. by sb.
  - destruct Hp as (H1 & H2 & H3). rewrite decode_alter_text by done. unfold decode_alter. pick.
    by rewrite named_text.
  - destruct Hp as (H1 & H2). unfold decode. rewrite <- (app_nil_r (sql_qa _ _)). pick.
    rewrite get_qa_app by done. by sb.
  - destruct Hp as (H1 & H2 & H3 & H4). rewrite decode_alter_text by done. unfold decode_alter. pick.
    rewrite named_text by done. rewrite strip_app. sb. rewrite get_qn_app by done. by sb.
Qed.

Lemma render_image c : render_sql (sql_image c) = render_sql c.
Proof. by destruct c. Qed.

Theorem same_sql_iff c c' : plain_change c -> plain_change c' ->
  render_sql c = render_sql c' <-> sql_image c = sql_image c'.
Proof.
  intros Hc Hc'. split.
  - intros H. apply decode_render in Hc, Hc'. rewrite H in Hc. congruence.
  - intros H. by rewrite <- (render_image c), H, render_image.
Qed.
