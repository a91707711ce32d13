(** Lemmas about reading statements. *)
From Verif Require Import Base Text Types Changes Sql SpecSql SpecLex SpecStatement SpecServer LexLemmas.

Notation W k := (Word (L k)).

(** ** Tokens of pieces of text *)

Lemma lex_prefix (a r : str) acc :
  lex_from Between [] a = Some (Between, acc) -> lex (a ++ r) = app (rev acc) <$> lex r.
Proof.
  intros Ha. unfold lex. rewrite lex_from_app, Ha.
  change (lex_from Between acc r) with (lex_from Between ([] ++ acc) r). rewrite from_base.
  destruct (lex_from Between [] r) as [[m a']|]; cbn; [|done].
  rewrite end_base. destruct (end_token m a'); cbn; [|done]. by rewrite rev_app_distr.
Qed.
Lemma lex_qn n r : quotable n -> head r <> Some 34%N -> lex (sql_qn n ++ r) = cons (Quoted n) <$> lex r.
Proof.
  intros Hn Hr. unfold sql_qn. rewrite <- !app_assoc. exact (lex_quoted n r Hn Hr).
Qed.
Lemma lex_qa s t r : quotable s -> quotable t -> head r <> Some 34%N ->
  lex (sql_qa s t ++ r) = app [Quoted s; Sym 46; Quoted t] <$> lex r.
Proof.
  intros Hs Ht Hr. unfold sql_qa. rewrite <- !app_assoc.
  rewrite lex_qn by done. rewrite (lex_prefix (L ".") _ [Sym 46]) by done.
  rewrite lex_qn by done. by destruct (lex r).
Qed.
Lemma lex_alter s t what n r acc :
  quotable s -> quotable t -> quotable n -> head r <> Some 34%N ->
  lex_from Between [] (L " " ++ what ++ L " ") = Some (Between, acc) ->
  lex (alter_table s t what n ++ r) =
  app (W "alter" :: W "table" :: Quoted s :: Sym 46 :: Quoted t :: rev acc ++ [Quoted n]) <$> lex r.
Proof.
  intros Hs Ht Hn Hr Hw. unfold alter_table. rewrite <- !app_assoc.
  rewrite (lex_prefix (L "ALTER TABLE ") _ [W "table"; W "alter"]) by done.
  rewrite lex_qa by done.
  replace (L " " ++ what ++ L " " ++ sql_qn n ++ r) with ((L " " ++ what ++ L " ") ++ sql_qn n ++ r)
    by (rewrite <- !app_assoc; done).
  rewrite (lex_prefix _ _ _ Hw), lex_qn by done.
  destruct (lex r); cbn; [|done]. by rewrite <- app_assoc.
Qed.

(** Lists with commas. *)
Fixpoint commas (ls : list (list token)) : list token :=
  match ls with [] => [] | [a] => a | a :: ls => a ++ Sym 44 :: commas ls end.
Lemma lex_list xs ls r : Forall2 (fun x a => lex x = Some a) xs ls -> separated r ->
  lex (sql_l xs ++ r) = app (commas ls) <$> lex r.
Proof.
  unfold sql_l. intros H Hr. induction H as [|x a xs ls Hx H IH]; [cbn [join_with commas app]; by destruct (lex r)|].
  destruct H as [|y b xs ls Hy H].
  - apply lex_app; done.
  - change (join_with (L ", ") (x :: y :: xs)) with (x ++ L ", " ++ join_with (L ", ") (y :: xs)).
    rewrite <- !app_assoc. rewrite (lex_app x _ a) by done.
    rewrite (lex_prefix (L ", ") _ [Sym 44]) by done. rewrite IH.
    destruct (lex r); cbn [fmap option_fmap option_map]; [|done].
    change (commas (a :: b :: ls)) with (a ++ Sym 44 :: commas (b :: ls)). by rewrite <- app_assoc.
Qed.
Lemma lex_names ns r : Forall quotable ns -> separated r ->
  lex (sql_ql ns ++ r) = app (commas ((fun n => [Quoted n]) <$> ns)) <$> lex r.
Proof.
  intros H Hr. apply lex_list; [|done]. induction H as [|n ns Hn H IH]; constructor; [|done].
  rewrite <- (app_nil_r (sql_qn n)). rewrite lex_qn; done.
Qed.

(** ** Brackets *)

Lemma until_app stop d l d' r : clear stop d l = Some d' ->
  until stop d (l ++ r) = let '(a, b) := until stop d' r in (l ++ a, b).
Proof.
  revert d. induction l as [|t l IH]; intros d H; cbn in H.
  - injection H as ->. cbn. by destruct (until stop d' r).
  - cbn. destruct d as [|d].
    + destruct (stop t || closes t) eqn:E; [done|]. rewrite (IH _ H). by destruct (until stop d' r).
    + rewrite (IH _ H). by destruct (until stop d' r).
Qed.
Lemma until_all stop d l d' : clear stop d l = Some d' -> until stop d l = (l, []).
Proof.
  intros H. rewrite <- (app_nil_r l) at 1. rewrite (until_app _ _ _ _ _ H). cbn. by rewrite app_nil_r.
Qed.
Lemma clear_mono (stop stop' : token -> bool) d l d' :
  (forall t, stop' t = true -> stop t = true) -> clear stop d l = Some d' -> clear stop' d l = Some d'.
Proof.
  intros Hs. revert d. induction l as [|t l IH]; intros d H; cbn in *; [done|].
  destruct d as [|d]; [|by apply IH].
  destruct (stop t) eqn:E; [done|]. destruct (stop' t) eqn:E'; [rewrite (Hs _ E') in E; done|].
  cbn in *. destruct (closes t); [done|]. by apply IH.
Qed.
Lemma clear_app stop d l d1 r : clear stop d l = Some d1 -> clear stop d (l ++ r) = clear stop d1 r.
Proof.
  revert d. induction l as [|t l IH]; intros d H; cbn in *; [by injection H as ->|].
  destruct d as [|d]; [|by apply IH]. destruct (stop t || closes t); [done|]. by apply IH.
Qed.
Definition never (_ : token) : bool := false.
Lemma clear_never stop d l d' : clear stop d l = Some d' -> clear never d l = Some d'.
Proof. apply clear_mono. done. Qed.
Lemma group_read a r : clear never 0 a = Some 0 -> group (Sym 40 :: a ++ Sym 41 :: r) = Some (a, r).
Proof.
  intros H. unfold group. cbn [symbol]. cbn [mbind option_bind N.eqb Pos.eqb].
  change (fun _ : token => false) with never. rewrite (until_app _ _ _ _ _ H). cbn. by rewrite app_nil_r.
Qed.

Lemma parts_commas fuel ls :
  Forall (fun a => a <> [] /\ clear is_comma 0 a = Some 0) ls -> ls <> [] -> length ls <= fuel ->
  parts fuel (commas ls) = Some ls.
Proof.
  revert fuel. induction ls as [|a ls IH]; intros fuel H Hne Hf; [done|].
  apply Forall_cons in H as [[Ha Hc] H]. destruct fuel as [|fuel]; [cbn in Hf; lia|].
  destruct ls as [|b ls].
  - cbn [commas]. cbn [parts]. rewrite (until_all _ _ _ _ Hc). by destruct a.
  - change (commas (a :: b :: ls)) with (a ++ Sym 44 :: commas (b :: ls)). cbn [parts].
    rewrite (until_app _ _ _ _ _ Hc).
    change (until is_comma 0 (Sym 44 :: commas (b :: ls))) with (@nil token, Sym 44 :: commas (b :: ls)).
    cbv iota beta. rewrite app_nil_r. destruct a as [|t a]; [done|]. cbn [is_comma N.eqb Pos.eqb].
    rewrite IH; [done|done|done|cbn in *; lia].
Qed.
Lemma commas_length ls : Forall (fun a : list token => a <> []) ls -> length ls <= length (commas ls).
Proof.
  intros H. induction H as [|a ls Ha H IH]; [done|]. destruct a as [|t a]; [done|].
  destruct ls as [|b ls]; [cbn; lia|].
  change (commas ((t :: a) :: b :: ls)) with ((t :: a) ++ Sym 44 :: commas (b :: ls)).
  rewrite app_length. cbn [length] in *. lia.
Qed.
Lemma comma_separated_commas ls :
  Forall (fun a => a <> [] /\ clear is_comma 0 a = Some 0) ls -> ls <> [] ->
  comma_separated (commas ls) = Some ls.
Proof.
  intros H Hne. apply parts_commas; [done|done|]. apply commas_length.
  eapply Forall_impl; [exact H|]. cbn. naive_solver.
Qed.
Lemma clear_commas stop ls : stop (Sym 44) = false -> Forall (fun a => clear stop 0 a = Some 0) ls ->
  clear stop 0 (commas ls) = Some 0.
Proof.
  intros Hc H. induction H as [|a ls Ha H IH]; [done|]. destruct ls as [|b ls]; [done|].
  change (commas (a :: b :: ls)) with (a ++ Sym 44 :: commas (b :: ls)).
  rewrite (clear_app _ _ _ _ _ Ha). cbn [clear]. rewrite Hc. exact IH.
Qed.
Lemma names_read ns : Forall nameable ns -> ns <> [] ->
  name_list (commas ((fun n => [Quoted n]) <$> ns)) = Some ns.
Proof.
  intros H Hne. unfold name_list. rewrite comma_separated_commas.
  - cbn. rewrite list_fmap_id || idtac. induction H as [|n ns [_ Hn] H IH]; [done|].
    cbn. rewrite Hn. cbn. destruct ns as [|m ns]; [done|]. cbn in *. rewrite IH by done. done.
  - apply Forall_fmap, Forall_forall. done.
  - by destruct ns.
Qed.
Lemma names_clear ns : clear never 0 (commas ((fun n => [Quoted n]) <$> ns)) = Some 0.
Proof. apply clear_commas; [done|]. apply Forall_fmap, Forall_forall. done. Qed.

(** ** One statement *)

Lemma one_with l : existsb is_semicolon l = false -> one_statement (l ++ [Sym 59]) = Some l.
Proof.
  intros H. unfold one_statement. rewrite rev_app_distr. cbn [rev app]. cbn [is_semicolon N.eqb Pos.eqb].
  rewrite rev_involutive, H. done.
Qed.
Lemma one_without l : existsb is_semicolon l = false -> one_statement l = Some l.
Proof.
  intros H. unfold one_statement. destruct (rev l) as [|t r] eqn:E.
  - apply (f_equal (@rev token)) in E. rewrite rev_involutive in E. subst l. done.
  - assert (Ht : is_semicolon t = false).
    { apply (f_equal (@rev token)) in E. rewrite rev_involutive in E. subst l. cbn in H.
      rewrite existsb_app in H. apply orb_false_iff in H as [_ H]. cbn in H. by rewrite orb_false_r in H. }
    rewrite Ht, H. done.
Qed.
Lemma names_semicolon ns : existsb is_semicolon (commas ((fun n => [Quoted n]) <$> ns)) = false.
Proof. induction ns as [|n [|m ns] IH]; [done|done|]. exact IH. Qed.

(** ** Beginnings of statements *)

Ltac reads := lazy -[clip column_spec_of constraint_of deferral_of table_action_of alter_column until parts
  comma_separated name_list group sequence_of function_of create_index_of whole mapM column_element];
  repeat match goal with H : nameable _ |- _ => destruct H as [_ H] end;
  repeat match goal with H : clip _ = _ |- _ => rewrite H; clear H end; try reflexivity.

Lemma read_alter s t l : nameable s -> nameable t ->
  statement_of (W "alter" :: W "table" :: Quoted s :: Sym 46 :: Quoted t :: l) =
  table_action_of l ≫= fun a => Some (DoAlterTable s t a).
Proof. intros Hs Ht. reads. Qed.

Lemma read_add_column n l : nameable n ->
  table_action_of (W "add" :: W "column" :: Quoted n :: l) = column_spec_of l ≫= fun c => Some (ToAddColumn n c).
Proof. intros Hn. unfold table_action_of, column_element. reads. by destruct (column_spec_of l). Qed.
Lemma read_drop_column n : nameable n -> table_action_of [W "drop"; W "column"; Quoted n] = Some (ToDropColumn n).
Proof. intros Hn. unfold table_action_of. reads. Qed.
Lemma read_rename_column n n' : nameable n -> nameable n' ->
  table_action_of [W "rename"; W "column"; Quoted n; W "to"; Quoted n'] = Some (ToRenameColumn n n').
Proof. intros Hn Hn'. unfold table_action_of. reads. Qed.
Lemma read_alter_column n l : nameable n ->
  table_action_of (W "alter" :: W "column" :: Quoted n :: l) = alter_column n l.
Proof. intros Hn. unfold table_action_of. reads. Qed.
Lemma read_set_type n l :
  alter_column n (W "set" :: W "data" :: W "type" :: l) = whole type_stop l ≫= fun ty => Some (ToSetType n ty).
Proof. unfold alter_column. reads. Qed.
Lemma read_set_default n l :
  alter_column n (W "set" :: W "default" :: l) = whole is_comma l ≫= fun e => Some (ToSetDefault n (Some e)).
Proof. unfold alter_column. reads. Qed.
Lemma read_drop_default n : alter_column n [W "drop"; W "default"] = Some (ToSetDefault n None).
Proof. unfold alter_column. reads. Qed.
Lemma read_set_not_null n : alter_column n [W "set"; W "not"; W "null"] = Some (ToSetNotNull n true).
Proof. unfold alter_column. reads. Qed.
Lemma read_drop_not_null n : alter_column n [W "drop"; W "not"; W "null"] = Some (ToSetNotNull n false).
Proof. unfold alter_column. reads. Qed.
Lemma read_add_constraint n l : nameable n ->
  table_action_of (W "add" :: W "constraint" :: Quoted n :: l) =
  constraint_of l ≫= fun k => Some (ToAddConstraint n k).
Proof. intros Hn. unfold table_action_of. reads. Qed.
Lemma read_alter_constraint n l : nameable n ->
  table_action_of (W "alter" :: W "constraint" :: Quoted n :: l) =
  deferral_of l ≫= fun '(d, i) => Some (ToAlterConstraint n d i).
Proof. intros Hn. unfold table_action_of. reads. Qed.
Lemma read_drop_constraint n : nameable n ->
  table_action_of [W "drop"; W "constraint"; Quoted n] = Some (ToDropConstraint n).
Proof. intros Hn. unfold table_action_of. reads. Qed.

Lemma read_primary l : constraint_of (W "primary" :: W "key" :: l) =
  group l ≫= fun '(cs, l) => name_list cs ≫= fun cs => deferral_of l ≫= fun '(d, i) => Some (KPrimary cs d i).
Proof. unfold constraint_of. reads. Qed.
Lemma read_unique l : constraint_of (W "unique" :: l) =
  group l ≫= fun '(cs, l) => name_list cs ≫= fun cs => deferral_of l ≫= fun '(d, i) => Some (KUnique cs d i).
Proof. unfold constraint_of. reads. Qed.
Lemma read_check l : constraint_of (W "check" :: l) =
  group l ≫= fun '(e, l) => deferral_of l ≫= fun '(d, i) =>
  match e, d with [], _ | _, true => None | _, false => Some (KCheck e) end.
Proof. unfold constraint_of. reads. Qed.
Lemma read_foreign l : constraint_of (W "foreign" :: W "key" :: l) =
  group l ≫= fun '(cs, l) => name_list cs ≫= fun cs =>
  keywords ["references"] l ≫= fun l => qualified_name l ≫= fun '(s, t, l) =>
  group l ≫= fun '(tcs, l) => name_list tcs ≫= fun tcs =>
  match_of l ≫= fun '(m, l) => actions 3 None None l ≫= fun '(u, d, l) =>
  deferral_of l ≫= fun '(df, i) =>
  Some (KForeign cs s t tcs m (default NoAction u) (default NoAction d) df i).
Proof. reflexivity. Qed.

Lemma read_create l : statement_of (W "create" :: l) = create_of l.
Proof. lazy -[create_of]. reflexivity. Qed.
Lemma read_drop l : statement_of (W "drop" :: l) = drop_of l.
Proof. lazy -[drop_of]. reflexivity. Qed.
Lemma read_create_schema l :
  create_of (W "schema" :: l) = name l ≫= fun '(n, l) => nothing_left l ≫= fun _ => Some (DoCreateSchema n).
Proof. lazy -[name]. reflexivity. Qed.
Lemma read_drop_schema l :
  drop_of (W "schema" :: l) = name l ≫= fun '(n, l) => nothing_left l ≫= fun _ => Some (DoDropSchema n).
Proof. lazy -[name]. reflexivity. Qed.
Lemma read_create_table s t l : nameable s -> nameable t ->
  create_of (W "table" :: Quoted s :: Sym 46 :: Quoted t :: l) =
  group l ≫= fun '(cs, l) => nothing_left l ≫= fun _ =>
  match cs with
  | [] => Some (DoCreateTable s t [])
  | _ => comma_separated cs ≫= fun cs => mapM column_element cs ≫= fun cs => Some (DoCreateTable s t cs)
  end.
Proof. intros Hs Ht. reads. Qed.
Lemma read_create_index l : create_of (W "index" :: l) = create_index_of false l.
Proof. reads. Qed.
Lemma read_create_unique_index l : create_of (W "unique" :: W "index" :: l) = create_index_of true l.
Proof. reads. Qed.
Lemma read_index u n s t m ks : nameable n -> nameable s -> nameable t -> m ∉ reserved -> clip m = m ->
  clear is_comma 0 ks = Some 0 \/ clear never 0 ks = Some 0 ->
  create_index_of u (Quoted n :: W "on" :: Quoted s :: Sym 46 :: Quoted t :: W "using" :: Word m :: Sym 40 :: ks ++ [Sym 41]) =
  comma_separated ks ≫= fun ks => Some (DoCreateIndex n s t u m ks).
Proof.
  intros [_ Hn] [_ Hs] [_ Ht] Hm Hm' Hk.
  assert (Hg : group (Sym 40 :: ks ++ [Sym 41]) = Some (ks, [])).
  { apply group_read. destruct Hk as [Hk|Hk]; [by eapply clear_never|done]. }
  unfold create_index_of. cbn [name name_of fmap option_fmap option_map mbind option_bind]. rewrite Hn.
  assert (Ho : forall l, keywords ["on"] (W "on" :: l) = Some l) by done. cbv iota beta.
  rewrite Ho. cbn [mbind option_bind]. unfold qualified_name.
  cbn [name name_of fmap option_fmap option_map mbind option_bind symbol N.eqb Pos.eqb]. rewrite Hs, Ht.
  assert (Hu : forall l, keywords ["using"] (W "using" :: l) = Some l) by done. cbv iota beta.
  rewrite Hu. cbn [name name_of fmap option_fmap option_map mbind option_bind].
  rewrite decide_False by done. cbn [fmap option_fmap option_map mbind option_bind]. rewrite Hm', Hg.
  cbn [mbind option_bind]. destruct (comma_separated ks); done.
Qed.
Lemma read_create_sequence s n l : nameable s -> nameable n ->
  create_of (W "sequence" :: Quoted s :: Sym 46 :: Quoted n :: l) =
  sequence_of l ≫= fun q => Some (DoCreateSequence s n q).
Proof. intros Hs Hn. reads. Qed.
Lemma read_create_view s n l : nameable s -> nameable n ->
  create_of (W "view" :: Quoted s :: Sym 46 :: Quoted n :: W "as" :: l) =
  match l with [] => None | _ => Some (DoCreateView s n l) end.
Proof. intros Hs Hn. reads. Qed.
Lemma read_create_function s n l : nameable s -> nameable n ->
  create_of (W "function" :: Quoted s :: Sym 46 :: Quoted n :: l) =
  function_of l ≫= fun f => Some (DoCreateFunction s n f).
Proof. intros Hs Hn. reads. Qed.
Lemma read_drop_table s n : nameable s -> nameable n ->
  drop_of [W "table"; Quoted s; Sym 46; Quoted n] = Some (DoDropTable s n).
Proof. intros Hs Hn. reads. Qed.
Lemma read_drop_index s n : nameable s -> nameable n ->
  drop_of [W "index"; Quoted s; Sym 46; Quoted n] = Some (DoDropIndex s n).
Proof. intros Hs Hn. reads. Qed.
Lemma read_drop_sequence s n : nameable s -> nameable n ->
  drop_of [W "sequence"; Quoted s; Sym 46; Quoted n] = Some (DoDropSequence s n).
Proof. intros Hs Hn. reads. Qed.
Lemma read_drop_view s n : nameable s -> nameable n ->
  drop_of [W "view"; Quoted s; Sym 46; Quoted n] = Some (DoDropView s n).
Proof. intros Hs Hn. reads. Qed.
Lemma read_drop_function s n : nameable s -> nameable n ->
  drop_of [W "function"; Quoted s; Sym 46; Quoted n] = Some (DoDropFunction s n).
Proof. intros Hs Hn. reads. Qed.
