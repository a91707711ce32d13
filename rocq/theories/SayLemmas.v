(** What the statement of each change is read as. *)
From Coq Require Import DecimalZ.
From Verif Require Import Base Text Types Changes Sql SpecSql SpecLex SpecStatement SpecServer LexLemmas
  StatementLemmas.

Lemma read_with sql l : lex sql = Some (l ++ [Sym 59]) -> no_semicolon l -> read_statement sql = statement_of l.
Proof. intros H Hl. unfold read_statement. rewrite H. cbn. by rewrite one_with. Qed.
Lemma read_without sql l : lex sql = Some l -> no_semicolon l -> read_statement sql = statement_of l.
Proof. intros H Hl. unfold read_statement. rewrite H. cbn. by rewrite one_without. Qed.

Ltac ob := cbn [mbind option_bind fmap option_fmap option_map].
Ltac semis := unfold no_semicolon in *; cbn; rewrite ?existsb_app; cbn; rewrite ?names_semicolon;
  repeat match goal with H : existsb is_semicolon _ = false |- _ => rewrite H end; try done.
Ltac names := repeat match goal with H : nameable _ |- _ => pose proof (proj1 H); revert H end; intros.

(** ** Columns *)

Definition default_tokens (d : option str) : list token :=
  match d with
  | Some x => match lex x with Some l => W "default" :: l | None => [] end
  | None => []
  end.
Lemma options_default fuel nn t e : clear column_stop (if opens t then 1 else 0) e = Some 0 ->
  column_options (S fuel) nn None (W "default" :: t :: e) = Some (nn, Some (t :: e)).
Proof.
  intros H. cbn [column_options].
  assert (E1 : keywords ["not"; "null"] (W "default" :: t :: e) = None) by reflexivity.
  assert (E2 : keywords ["null"] (W "default" :: t :: e) = None) by reflexivity.
  assert (E3 : keywords ["default"] (W "default" :: t :: e) = Some (t :: e)) by reflexivity.
  rewrite E1, E2, E3, (until_all _ _ _ _ H). by destruct fuel.
Qed.
Lemma options_not_null fuel l : column_options (S fuel) None None (W "not" :: W "null" :: l) = column_options fuel (Some true) None l.
Proof. reflexivity. Qed.
Lemma options_null fuel l : column_options (S fuel) None None (W "null" :: l) = column_options fuel (Some false) None l.
Proof. reflexivity. Qed.

Inductive null_tokens : bool -> list token -> Prop :=
  | null_said : null_tokens false [W "null"]
  | not_null_said : null_tokens true [W "not"; W "null"]
  | nothing_said : null_tokens false [].
Lemma spelled_default d : (forall x, d = Some x -> expression_spelled x) ->
  exists x, default_meant d = Some x /\ no_semicolon (default_tokens d) /\
    (default_tokens d = [] /\ x = None \/
     exists t e, default_tokens d = W "default" :: t :: e /\ x = Some (t :: e) /\
       clear column_stop (if opens t then 1 else 0) e = Some 0 /\ clear is_comma 0 (t :: e) = Some 0).
Proof.
  intros H. destruct d as [d|]; [|exists None; split_and!; [done|done|by left]].
  destruct (H d eq_refl) as (l & Hl & Hne & Hs & Hc & Hd). destruct l as [|t e]; [done|].
  exists (Some (t :: e)). cbn [default_meant default_tokens]. rewrite Hl. split_and!; [done|semis|]. right. by exists t, e.
Qed.
Lemma column_read ty nn b d x o dt :
  ty <> [] -> clear column_stop 0 ty = Some 0 -> serial ty = false ->
  null_tokens b o ->
  (dt = [] /\ x = None \/
   exists t e, dt = W "default" :: t :: e /\ x = Some (t :: e) /\
     clear column_stop (if opens t then 1 else 0) e = Some 0) ->
  d = x -> nn = b ->
  column_spec_of (ty ++ o ++ dt) = Some (ColumnSpec ty nn d).
Proof.
  intros Hne Hc Hs Ho Hd -> ->. unfold column_spec_of. rewrite (until_app _ _ _ _ _ Hc).
  assert (E : until column_stop 0 (o ++ dt) = ([], o ++ dt)).
  { destruct Ho; [done|done|]. destruct Hd as [[-> _]|(t & e & -> & _)]; done. }
  rewrite E, app_nil_r. destruct ty as [|t0 ty]; [done|]. rewrite Hs.
  assert (Hopt : column_options (length (o ++ dt)) None None (o ++ dt) =
                 Some (match o with [] => None | _ => Some b end, x)).
  { destruct Hd as [[-> ->]|(t & e & -> & -> & Hd)].
    - destruct Ho; reflexivity.
    - destruct Ho; cbn [app length].
      + rewrite options_null. by rewrite options_default.
      + rewrite options_not_null. by rewrite options_default.
      + by rewrite options_default. }
  rewrite Hopt. cbn. by destruct Ho.
Qed.

Lemma add_column_text s t n ty nn d :
  render_sql (AddColumn s t n ty nn d) =
  alter_table s t (L "ADD COLUMN") n ++ L " " ++ ty ++ (if nn then [] else L " NOT NULL") ++
  default_option d ++ L ";".
Proof.
  cbn [render_sql]. unfold add_column_tokens, default_option.
  destruct nn, d; cbn [negb app join_with]; rewrite <- ?app_assoc; reflexivity.
Qed.
Lemma lex_default d r : (forall x, d = Some x -> expression_spelled x) -> separated r ->
  lex (default_option d ++ r) = app (default_tokens d) <$> lex r.
Proof.
  intros H Hr. destruct d as [d|]; cbn [default_option default_tokens]; [|cbn; by destruct (lex r)].
  destruct (H d eq_refl) as (l & Hl & _). rewrite Hl, <- app_assoc.
  rewrite (lex_prefix (L " DEFAULT ") _ [W "default"]) by done. rewrite (lex_app _ _ _ Hl Hr). by destruct (lex r).
Qed.
Lemma read_add_column_text s t n ty nn d :
  well_spelled (AddColumn s t n ty nn d) ->
  exists x, column_meant ty (negb nn) d = Some x /\
    read_statement (render_sql (AddColumn s t n ty nn d)) = Some (DoAlterTable s t (ToAddColumn n x)).
Proof.
  intros (Hs & Ht & Hn & (l & Hl & Hne & Hsem & Hc & _ & Hser) & Hd). cbn in Hl, Hd, Hn.
  destruct (spelled_default d Hd) as (x & Hx & Hsd & Hdt).
  exists (ColumnSpec l (negb nn) x). unfold column_meant. rewrite Hl. ob. rewrite Hx. ob. split; [done|].
  rewrite (read_with _ (W "alter" :: W "table" :: Quoted s :: Sym 46 :: Quoted t :: W "add" :: W "column" :: Quoted n ::
    l ++ (if nn then [] else [W "not"; W "null"]) ++ default_tokens d)).
  - rewrite read_alter, read_add_column by done.
    rewrite (column_read l (negb nn) (negb nn) x x); [done|done|done|done| | |done|done].
    + destruct nn; constructor.
    + destruct Hdt as [?|(t' & e & ? & ? & ? & _)]; [by left|right; by eexists _, _].
  - rewrite add_column_text.
    rewrite (lex_alter s t (L "ADD COLUMN") n _ [W "column"; W "add"]); [|apply Hs|apply Ht|apply Hn|done|done].
    rewrite (lex_prefix (L " ") _ []) by done.
    rewrite (lex_app _ _ _ Hl); [|by destruct nn, d].
    destruct nn.
    + cbn [app]. rewrite lex_default by done. cbn. f_equal. rewrite <- !app_assoc. done.
    + rewrite (lex_app_some _ _ [W "not"; W "null"] (default_tokens d ++ [Sym 59])); [cbn; by rewrite <- !app_assoc|done|by destruct d|].
      by rewrite lex_default.
  - semis. by destruct nn.
Qed.

Lemma comma_stops t : is_comma t = true -> column_stop t = true.
Proof. destruct t; done. Qed.
Lemma create_column_text c :
  create_table_column_sql c =
  sql_qn (cc_name c) ++ L " " ++ cc_type c ++ (if cc_notnull c then [] else L " NULL") ++ default_option (cc_default c).
Proof.
  unfold create_table_column_sql, default_option.
  destruct (cc_notnull c), (cc_default c); cbn [negb app join_with]; rewrite <- ?app_assoc; try reflexivity;
    by rewrite ?app_nil_r.
Qed.
Lemma read_created_column c : column_spelled c ->
  exists l x, lex (create_table_column_sql c) = Some l /\ l <> [] /\ no_semicolon l /\
    clear is_comma 0 l = Some 0 /\
    column_meant (cc_type c) false (cc_default c) = Some x /\ column_element l = Some (cc_name c, x).
Proof.
  intros (Hn & (l & Hl & Hne & Hsem & Hc & _ & Hser) & Hd). cbn in Hl.
  destruct (spelled_default _ Hd) as (x & Hx & Hsd & Hdt).
  set (o := if cc_notnull c then [] else [W "null"]).
  exists (Quoted (cc_name c) :: l ++ o ++ default_tokens (cc_default c)), (ColumnSpec l false x).
  split_and!.
  - rewrite create_column_text. rewrite lex_qn by (apply Hn || done).
    rewrite (lex_prefix (L " ") _ []) by done.
    rewrite (lex_app _ _ _ Hl); [|by destruct (cc_notnull c), (cc_default c)].
    assert (E : lex (default_option (cc_default c)) = Some (default_tokens (cc_default c))).
    { rewrite <- (app_nil_r (default_option _)). rewrite lex_default by done. change (lex []) with (Some (@nil token)). ob. by rewrite app_nil_r. }
    subst o. destruct (cc_notnull c).
    + cbn [app]. rewrite E. done.
    + rewrite (lex_app_some _ _ [W "null"] (default_tokens (cc_default c))); [done|done|by destruct (cc_default c)|done].
  - done.
  - subst o. semis. by destruct (cc_notnull c).
  - cbn [clear]. cbn [is_comma closes opens orb].
    rewrite (clear_app _ _ l 0); [|by eapply clear_mono; [exact comma_stops|]].
    assert (E : clear is_comma 0 (default_tokens (cc_default c)) = Some 0).
    { destruct Hdt as [[-> _]|(t & e & -> & _ & _ & E)]; [done|]. exact E. }
    subst o. by destruct (cc_notnull c).
  - unfold column_meant. rewrite Hl. ob. rewrite Hx. done.
  - unfold column_element. cbn [name name_of]. ob. rewrite (proj2 Hn).
    subst o. rewrite (column_read l false false x x); [done|done|done|done| | |done|done].
    + destruct (cc_notnull c); constructor.
    + destruct Hdt as [?|(t' & e & ? & ? & ? & _)]; [by left|right; by eexists _, _].
Qed.
Lemma read_created_columns cs : Forall column_spelled cs ->
  exists ls xs, Forall2 (fun x a => lex x = Some a) (create_table_column_sql <$> cs) ls /\
    Forall (fun a => a <> [] /\ clear is_comma 0 a = Some 0) ls /\ Forall no_semicolon ls /\
    mapM (fun c => pair (cc_name c) <$> column_meant (cc_type c) false (cc_default c)) cs = Some xs /\
    mapM column_element ls = Some xs.
Proof.
  intros H. induction H as [|c cs Hc H IH]; [exists [], []; split_and!; by constructor|].
  destruct IH as (ls & xs & H1 & H2 & H3 & H4 & H5).
  destruct (read_created_column c Hc) as (l & x & G1 & G2 & G3 & G4 & G5 & G6).
  exists (l :: ls), ((cc_name c, x) :: xs). split_and!; [by constructor|by constructor|by constructor| |].
  - cbn. rewrite G5. cbn. cbn in H4. by rewrite H4.
  - cbn. rewrite G6. cbn. cbn in H5. by rewrite H5.
Qed.
Lemma commas_semicolon ls : Forall no_semicolon ls -> no_semicolon (commas ls).
Proof.
  unfold no_semicolon. intros H. induction H as [|a ls Ha H IH]; [done|]. destruct ls as [|b ls]; [done|].
  change (commas (a :: b :: ls)) with (a ++ Sym 44 :: commas (b :: ls)). rewrite existsb_app, Ha. exact IH.
Qed.
Lemma read_create_table_text s t cs : well_spelled (CreateTable s t cs) ->
  exists xs, mapM (fun c => pair (cc_name c) <$> column_meant (cc_type c) false (cc_default c)) cs = Some xs /\
    read_statement (render_sql (CreateTable s t cs)) = Some (DoCreateTable s t xs).
Proof.
  intros (Hs & Ht & Hcs). destruct (read_created_columns cs Hcs) as (ls & xs & H1 & H2 & H3 & H4 & H5).
  exists xs. split; [done|].
  rewrite (read_with _ (W "create" :: W "table" :: Quoted s :: Sym 46 :: Quoted t :: Sym 40 :: commas ls ++ [Sym 41])).
  - rewrite read_create, read_create_table by done.
    assert (Hg : group (Sym 40 :: commas ls ++ [Sym 41]) = Some (commas ls, [])).
    { apply group_read. apply clear_commas; [done|]. eapply Forall_impl; [exact H2|]. intros a [_ Ha]. by eapply clear_never. }
    rewrite Hg. ob. cbn [nothing_left]. ob.
    destruct ls as [|a ls]; [cbn in *; by injection H5 as <-|].
    assert (Hcne : commas (a :: ls) <> []).
    { apply Forall_cons in H2 as [[Ha _] _]. destruct a; [done|]. by destruct ls. }
    destruct (commas (a :: ls)) as [|t0 l0] eqn:E; [done|]. rewrite <- E.
    rewrite comma_separated_commas by done. ob. rewrite H5. done.
  - cbn [render_sql]. rewrite (lex_prefix (L "CREATE TABLE ") _ [W "table"; W "create"]) by done.
    rewrite lex_qa by (apply Hs || apply Ht || done).
    rewrite (lex_prefix (L " (") _ [Sym 40]) by done. rewrite (lex_list _ ls) by done. cbn.
    by rewrite <- app_assoc.
  - pose proof (commas_semicolon ls H3). semis.
Qed.

(** ** Statements about one name *)

Ltac lex_alter_with what r acc :=
  rewrite (lex_alter _ _ what _ r acc) by (done || match goal with H : nameable _ |- _ => apply H end).

Lemma read_drops_constraint s t n : nameable s -> nameable t -> nameable n ->
  read_statement (alter_table s t (L "DROP CONSTRAINT") n ++ L ";") = Some (DoAlterTable s t (ToDropConstraint n)) /\
  read_statement (alter_table s t (L "DROP CONSTRAINT") n) = Some (DoAlterTable s t (ToDropConstraint n)).
Proof.
  intros Hs Ht Hn. split.
  - rewrite (read_with _ [W "alter"; W "table"; Quoted s; Sym 46; Quoted t; W "drop"; W "constraint"; Quoted n]).
    + by rewrite read_alter, read_drop_constraint.
    + by rewrite (lex_alter _ _ _ _ _ [W "constraint"; W "drop"]) by (apply Hs || apply Ht || apply Hn || done).
    + semis.
  - rewrite (read_without _ [W "alter"; W "table"; Quoted s; Sym 46; Quoted t; W "drop"; W "constraint"; Quoted n]).
    + by rewrite read_alter, read_drop_constraint.
    + rewrite <- (app_nil_r (alter_table _ _ _ _)).
      by rewrite (lex_alter _ _ _ _ _ [W "constraint"; W "drop"]) by (apply Hs || apply Ht || apply Hn || done).
    + semis.
Qed.
Lemma read_drop_column_text s t n : nameable s -> nameable t -> nameable n ->
  read_statement (render_sql (DropColumn s t n)) = Some (DoAlterTable s t (ToDropColumn n)).
Proof.
  intros Hs Ht Hn.
  rewrite (read_with _ [W "alter"; W "table"; Quoted s; Sym 46; Quoted t; W "drop"; W "column"; Quoted n]).
  - by rewrite read_alter, read_drop_column.
  - cbn [render_sql]. by rewrite (lex_alter _ _ _ _ _ [W "column"; W "drop"]) by (apply Hs || apply Ht || apply Hn || done).
  - semis.
Qed.
Lemma read_rename_column_text s t n n' : nameable s -> nameable t -> nameable n -> nameable n' ->
  read_statement (render_sql (RenameColumn s t n n')) = Some (DoAlterTable s t (ToRenameColumn n n')).
Proof.
  intros Hs Ht Hn Hn'.
  rewrite (read_with _ [W "alter"; W "table"; Quoted s; Sym 46; Quoted t; W "rename"; W "column"; Quoted n; W "to"; Quoted n']).
  - by rewrite read_alter, read_rename_column.
  - cbn [render_sql]. rewrite (lex_alter _ _ _ _ _ [W "column"; W "rename"]) by (apply Hs || apply Ht || apply Hn || done).
    rewrite (lex_prefix (L " TO ") _ [W "to"]) by done. by rewrite lex_qn by (apply Hn' || done).
  - semis.
Qed.
Lemma whole_clear stop l : l <> [] -> clear stop 0 l = Some 0 -> whole stop l = Some l.
Proof. intros Hne Hc. unfold whole. rewrite (until_all _ _ _ _ Hc). by destruct l. Qed.
Lemma read_set_type_text s t n ty : well_spelled (AlterColumnSetDataType s t n ty) ->
  exists l, lex ty = Some l /\ read_statement (render_sql (AlterColumnSetDataType s t n ty)) = Some (DoAlterTable s t (ToSetType n l)).
Proof.
  intros (Hs & Ht & Hn & l & Hl & Hne & Hsem & _ & Hc & _). exists l. split; [done|].
  rewrite (read_with _ ([W "alter"; W "table"; Quoted s; Sym 46; Quoted t; W "alter"; W "column"; Quoted n; W "set"; W "data"; W "type"] ++ l)).
  - cbn [app]. rewrite read_alter, read_alter_column, read_set_type, whole_clear by done. done.
  - cbn [render_sql]. rewrite (lex_alter _ _ _ _ _ [W "column"; W "alter"]) by (apply Hs || apply Ht || apply Hn || done).
    rewrite (lex_prefix (L " SET DATA TYPE ") _ [W "type"; W "data"; W "set"]) by done.
    rewrite (lex_app _ _ _ Hl) by done. done.
  - semis.
Qed.
Lemma read_set_default_text s t n d : well_spelled (AlterColumnSetDefault s t n d) ->
  exists x, default_meant d = Some x /\
    read_statement (render_sql (AlterColumnSetDefault s t n d)) = Some (DoAlterTable s t (ToSetDefault n x)).
Proof.
  intros (Hs & Ht & Hn & Hd). destruct d as [d|].
  - destruct (Hd d eq_refl) as (l & Hl & Hne & Hsem & Hc & _). exists (Some l). cbn [default_meant]. rewrite Hl. split; [done|].
    rewrite (read_with _ ([W "alter"; W "table"; Quoted s; Sym 46; Quoted t; W "alter"; W "column"; Quoted n; W "set"; W "default"] ++ l)).
    + cbn [app]. rewrite read_alter, read_alter_column, read_set_default, whole_clear by done. done.
    + cbn [render_sql]. rewrite (lex_alter _ _ _ _ _ [W "column"; W "alter"]) by (apply Hs || apply Ht || apply Hn || done).
      rewrite (lex_prefix (L " SET DEFAULT ") _ [W "default"; W "set"]) by done.
      rewrite (lex_app _ _ _ Hl) by done. done.
    + semis.
  - exists None. split; [done|].
    rewrite (read_with _ [W "alter"; W "table"; Quoted s; Sym 46; Quoted t; W "alter"; W "column"; Quoted n; W "drop"; W "default"]).
    + by rewrite read_alter, read_alter_column, read_drop_default by done.
    + cbn [render_sql]. by rewrite (lex_alter _ _ _ _ _ [W "column"; W "alter"]) by (apply Hs || apply Ht || apply Hn || done).
    + semis.
Qed.
Lemma read_set_not_null_text s t n b : nameable s -> nameable t -> nameable n ->
  read_statement (render_sql (AlterColumnSetNotNull s t n b)) = Some (DoAlterTable s t (ToSetNotNull n b)).
Proof.
  intros Hs Ht Hn.
  rewrite (read_with _ ([W "alter"; W "table"; Quoted s; Sym 46; Quoted t; W "alter"; W "column"; Quoted n] ++
    if b then [W "set"; W "not"; W "null"] else [W "drop"; W "not"; W "null"])).
  - cbn [app]. rewrite read_alter, read_alter_column by done.
    destruct b; [by rewrite read_set_not_null|by rewrite read_drop_not_null].
  - cbn [render_sql]. destruct b;
      by rewrite (lex_alter _ _ _ _ _ [W "column"; W "alter"]) by (apply Hs || apply Ht || apply Hn || done).
  - semis. by destruct b.
Qed.

(** ** Deferrability *)

Definition deferral_tokens (d i : bool) : list token :=
  (if d then [W "deferrable"] else [W "not"; W "deferrable"]) ++
  (if i then [W "initially"; W "deferred"] else [W "initially"; W "immediate"]).
Lemma lex_deferral d i r : separated r ->
  lex (sql_deferrable d ++ L " " ++ sql_initially i ++ r) = app (deferral_tokens d i) <$> lex r.
Proof.
  intros Hr.
  assert (E : lex (sql_deferrable d ++ L " " ++ sql_initially i) = Some (deferral_tokens d i)) by by destruct d, i.
  rewrite <- (lex_app _ _ _ E Hr). f_equal. by rewrite <- !app_assoc.
Qed.
Lemma deferral_read d i :
  deferral_of (deferral_tokens d i) = if d || negb i then Some (d, i) else None.
Proof. by destruct d, i. Qed.
Lemma deferral_semicolon d i : existsb is_semicolon (deferral_tokens d i) = false.
Proof. by destruct d, i. Qed.
Lemma read_alter_constraint_text s t n d i : nameable s -> nameable t -> nameable n ->
  read_statement (alter_table s t (L "ALTER CONSTRAINT") n ++ L " " ++ sql_deferrable d ++ L " " ++ sql_initially i ++ L ";") =
    (if d || negb i then Some (DoAlterTable s t (ToAlterConstraint n d i)) else None) /\
  read_statement (alter_table s t (L "ALTER CONSTRAINT") n ++ L " " ++
      (if d then L "DEFERRABLE INITIALLY DEFERRED" else L "NOT DEFERRABLE INITIALLY IMMEDIATE")) =
    Some (DoAlterTable s t (ToAlterConstraint n d d)).
Proof.
  intros Hs Ht Hn. split.
  - rewrite (read_with _ ([W "alter"; W "table"; Quoted s; Sym 46; Quoted t; W "alter"; W "constraint"; Quoted n] ++
      deferral_tokens d i)).
    + cbn [app]. rewrite read_alter, read_alter_constraint, deferral_read by done. by destruct d, i.
    + rewrite (lex_alter _ _ _ _ _ [W "constraint"; W "alter"]) by (apply Hs || apply Ht || apply Hn || done).
      rewrite (lex_prefix (L " ") _ []) by done. by rewrite lex_deferral.
    + pose proof (deferral_semicolon d i). semis.
  - rewrite (read_without _ ([W "alter"; W "table"; Quoted s; Sym 46; Quoted t; W "alter"; W "constraint"; Quoted n] ++
      deferral_tokens d d)).
    + cbn [app]. rewrite read_alter, read_alter_constraint, deferral_read by done. by destruct d.
    + rewrite (lex_alter _ _ _ _ _ [W "constraint"; W "alter"]) by (apply Hs || apply Ht || apply Hn || done).
      rewrite (lex_prefix (L " ") _ []) by done. by destruct d.
    + pose proof (deferral_semicolon d d). semis.
Qed.

(** ** Constraints *)

Lemma names_group cs r : group (Sym 40 :: commas ((fun n => [Quoted n]) <$> cs) ++ Sym 41 :: r) =
  Some (commas ((fun n => [Quoted n]) <$> cs), r).
Proof. apply group_read, names_clear. Qed.
Lemma quotables cs : Forall nameable cs -> Forall quotable cs.
Proof. intros H. eapply Forall_impl; [exact H|]. by intros n [? _]. Qed.
Lemma read_add_key_text s t n cs d i : nameable s -> nameable t -> nameable n -> Forall nameable cs ->
  read_statement (render_sql (AddPrimaryKey s t n cs d i)) =
    (if d || negb i then match cs with [] => None | _ => Some (DoAlterTable s t (ToAddConstraint n (KPrimary cs d i))) end
     else None) /\
  read_statement (render_sql (AddUnique s t n cs d i)) =
    (if d || negb i then match cs with [] => None | _ => Some (DoAlterTable s t (ToAddConstraint n (KUnique cs d i))) end
     else None).
Proof.
  intros Hs Ht Hn Hcs. pose proof (deferral_semicolon d i). pose proof (quotables cs Hcs). split.
  - rewrite (read_with _ ([W "alter"; W "table"; Quoted s; Sym 46; Quoted t; W "add"; W "constraint"; Quoted n;
      W "primary"; W "key"; Sym 40] ++ commas ((fun n => [Quoted n]) <$> cs) ++ Sym 41 :: deferral_tokens d i)).
    + cbn [app]. rewrite read_alter, read_add_constraint, read_primary, names_group by done. ob.
      destruct cs as [|c cs]; [by destruct d, i|]. rewrite names_read by done. ob.
      rewrite deferral_read. by destruct d, i.
    + cbn [render_sql]. rewrite (lex_alter _ _ _ _ _ [W "constraint"; W "add"]) by (apply Hs || apply Ht || apply Hn || done).
      rewrite (lex_prefix (L " PRIMARY KEY (") _ [Sym 40; W "key"; W "primary"]) by done.
      rewrite lex_names by done. rewrite (lex_prefix (L ") ") _ [Sym 41]) by done.
      rewrite lex_deferral by done. cbn. by rewrite <- app_assoc.
    + semis.
  - rewrite (read_with _ ([W "alter"; W "table"; Quoted s; Sym 46; Quoted t; W "add"; W "constraint"; Quoted n;
      W "unique"; Sym 40] ++ commas ((fun n => [Quoted n]) <$> cs) ++ Sym 41 :: deferral_tokens d i)).
    + cbn [app]. rewrite read_alter, read_add_constraint, read_unique, names_group by done. ob.
      destruct cs as [|c cs]; [by destruct d, i|]. rewrite names_read by done. ob.
      rewrite deferral_read. by destruct d, i.
    + cbn [render_sql]. rewrite (lex_alter _ _ _ _ _ [W "constraint"; W "add"]) by (apply Hs || apply Ht || apply Hn || done).
      rewrite (lex_prefix (L " UNIQUE (") _ [Sym 40; W "unique"]) by done.
      rewrite lex_names by done. rewrite (lex_prefix (L ") ") _ [Sym 41]) by done.
      rewrite lex_deferral by done. cbn. by rewrite <- app_assoc.
    + semis.
Qed.

(** *** Checks *)

Lemma opens_closes t : opens t = true -> closes t = false.
Proof.
  destruct t as [| | | |c]; try done. cbn. rewrite orb_true_iff, !N.eqb_eq. by intros [->| ->].
Qed.
Lemma first_closing k l : clear never (S k) l = Some 0 ->
  exists a c r, l = a ++ c :: r /\ clear never k a = Some 0 /\ closes c = true.
Proof.
  revert k. induction l as [|t l IH]; intros k H; cbn [clear] in H; [done|].
  destruct (opens t) eqn:Eo.
  - destruct (IH _ H) as (a & c & r & -> & Ha & Hc). exists (t :: a), c, r. split_and!; [done| |done].
    cbn [clear]. rewrite (opens_closes _ Eo), Eo. by destruct k.
  - destruct (closes t) eqn:Ec.
    + destruct k as [|k]; [by exists [], t, l|].
      destruct (IH _ H) as (a & c & r & -> & Ha & Hc). exists (t :: a), c, r. split_and!; [done| |done].
      cbn [clear]. by rewrite Eo, Ec.
    + destruct (IH _ H) as (a & c & r & -> & Ha & Hc). exists (t :: a), c, r. split_and!; [done| |done].
      cbn [clear]. rewrite Eo, Ec. by destruct k.
Qed.
Lemma group_app l x : clear never 0 l = Some 0 -> l <> [] ->
  match group l with
  | Some (a, r) => group (l ++ x) = Some (a, r ++ x)
  | None => group (l ++ x) = None
  end.
Proof.
  intros Hl Hne. destruct l as [|t l]; [done|]. cbn [clear] in Hl.
  destruct t as [w|q|d|q|c]; [done|done|done|done|].
  destruct (c =? 40)%N eqn:Ec; [|unfold group; cbn; by rewrite Ec].
  apply N.eqb_eq in Ec as ->. cbn in Hl.
  destruct (first_closing 0 l Hl) as (a & c & r & -> & Ha & Hc).
  destruct c as [w|q|d|q|c]; try done.
  assert (U : forall y, until (fun _ => false) 0 (a ++ Sym c :: y) = (a, Sym c :: y)).
  { intros y. change (fun _ : token => false) with never. rewrite (until_app _ _ _ _ _ Ha).
    cbn [until]. rewrite Hc, orb_true_r. cbn. by rewrite app_nil_r. }
  unfold group. cbn [symbol app]. rewrite <- app_assoc. cbn [app]. cbn [N.eqb Pos.eqb]. ob. rewrite !U.
  cbn [symbol]. by destruct (c =? 41)%N.
Qed.
Lemma more_attributes n r d i x : length r <= n ->
  attributes d i (r ++ deferral_tokens false false) = Some x -> r = [] /\ d = None /\ i = None.
Proof.
  revert r d i. induction n as [|n IH]; intros r d i Hn H.
  - destruct r; [|by cbn in Hn; lia]. by destruct d, i.
  - destruct r as [|t r]; [by destruct d, i|]. exfalso.
    cbn [app] in H. destruct t as [a| | | |]; try done. cbn [attributes] in H.
    destruct (str_eqb a (L "deferrable")).
    { destruct d; [done|]. apply IH in H as (_ & ? & _); [done|cbn in Hn; lia]. }
    destruct r as [|t r].
    { cbn [app deferral_tokens] in H.
      assert (E1 : str_eqb (L "not") (L "deferrable") = false) by reflexivity.
      assert (E2 : str_eqb (L "not") (L "deferred") = false) by reflexivity.
      assert (E3 : str_eqb (L "not") (L "immediate") = false) by reflexivity.
      rewrite E1, E2, E3, !andb_false_r in H. done. }
    cbn [app] in H. destruct t as [b| | | |]; try done. cbn in Hn.
    destruct (str_eqb a (L "not") && str_eqb b (L "deferrable")).
    { destruct d; [done|]. apply IH in H as (_ & ? & _); [done|lia]. }
    destruct (str_eqb a (L "initially") && str_eqb b (L "deferred")).
    { destruct i; [done|]. apply IH in H as (_ & _ & ?); [done|lia]. }
    destruct (str_eqb a (L "initially") && str_eqb b (L "immediate")).
    { destruct i; [done|]. apply IH in H as (_ & _ & ?); [done|lia]. }
    done.
Qed.
Lemma read_add_check_text s t n e : nameable s -> nameable t -> nameable n ->
  spelled (fun l => clear is_comma 0 l = Some 0) e ->
  read_statement (render_sql (AddCheck s t n e false false)) =
    match lex e ≫= group with
    | Some (t0 :: a, []) => Some (DoAlterTable s t (ToAddConstraint n (KCheck (t0 :: a))))
    | _ => None
    end.
Proof.
  intros Hs Ht Hn (l & Hl & Hne & Hsem & Hc). pose proof (deferral_semicolon false false).
  rewrite (read_with _ ([W "alter"; W "table"; Quoted s; Sym 46; Quoted t; W "add"; W "constraint"; Quoted n;
      W "check"] ++ l ++ deferral_tokens false false)).
  - cbn [app]. rewrite read_alter, read_add_constraint, read_check by done. rewrite Hl. ob.
    pose proof (group_app l (deferral_tokens false false) (clear_never _ _ _ _ Hc) Hne) as Hg.
    destruct (group l) as [[a r]|]; [|by rewrite Hg]. rewrite Hg. ob.
    destruct r as [|t0 r].
    + cbn [app]. rewrite deferral_read. cbn [orb negb]. ob. by destruct a.
    + assert (E : deferral_of ((t0 :: r) ++ deferral_tokens false false) = None).
      { unfold deferral_of. destruct (attributes None None _) eqn:E; [|done].
        by apply (more_attributes (length (t0 :: r))) in E as (? & _ & _). }
      rewrite E. by destruct a.
  - cbn [render_sql]. rewrite (lex_alter _ _ _ _ _ [W "constraint"; W "add"]) by (apply Hs || apply Ht || apply Hn || done).
    rewrite (lex_prefix (L " CHECK ") _ [W "check"]) by done. rewrite (lex_app _ _ _ Hl) by done.
    rewrite (lex_prefix (L " ") _ []) by done. rewrite lex_deferral by done. cbn. by rewrite <- app_assoc.
  - semis.
Qed.

(** *** Foreign keys *)

Lemma one_keeps p t x l : is_semicolon t = false -> one_statement (p ++ t :: x) = Some l -> exists y, l = p ++ t :: y.
Proof.
  intros Ht. unfold one_statement. destruct x as [|u x _] using rev_ind.
  - rewrite rev_app_distr. cbn [rev app]. rewrite Ht. destruct (existsb _ _); [done|]. intros [= <-]. by exists [].
  - assert (E : rev (p ++ t :: x ++ [u]) = u :: rev (p ++ t :: x)).
    { rewrite app_comm_cons, app_assoc, rev_app_distr. done. }
    rewrite E. destruct (is_semicolon u).
    + rewrite rev_involutive. destruct (existsb _ _); [done|]. intros [= <-]. by exists x.
    + destruct (existsb _ _); [done|]. intros [= <-]. by exists (x ++ [u]).
Qed.
Lemma match_word m : is_Some (match_meant m) ->
  exists w, lex m = Some [Word w] /\ (w = L "full" \/ w = L "partial" \/ w = L "simple").
Proof.
  intros [x H]. unfold match_meant, word_meant in H. destruct (lex m) as [[|[w| | | |] []]|]; try done.
  cbn [mbind option_bind] in H. exists w. split; [done|].
  do 3 (case_bool_decide; [by eauto|]). done.
Qed.
Lemma read_add_foreign_key_text s t n cs s' t' tcs m u dl d i :
  well_spelled (AddForeignKey s t n cs s' t' tcs m u dl d i) ->
  read_statement (render_sql (AddForeignKey s t n cs s' t' tcs m u dl d i)) = None.
Proof.
  intros (Hs & Ht & Hn & Hcs & Hs' & Ht' & Htcs & Hm & _).
  destruct (match_word m Hm) as (w & Hw & Hws).
  pose proof (quotables cs Hcs). pose proof (quotables tcs Htcs).
  set (p := [W "alter"; W "table"; Quoted s; Sym 46; Quoted t; W "add"; W "constraint"; Quoted n;
      W "foreign"; W "key"; Sym 40] ++ commas ((fun n => [Quoted n]) <$> cs) ++
      [Sym 41; W "references"; Quoted s'; Sym 46; Quoted t'; Sym 40] ++ commas ((fun n => [Quoted n]) <$> tcs) ++ [Sym 41]).
  assert (E : lex (render_sql (AddForeignKey s t n cs s' t' tcs m u dl d i)) =
    app (p ++ [Word w]) <$> lex (L " " ++ u ++ L " " ++ dl ++ L ";")).
  { cbn [render_sql]. rewrite (lex_alter _ _ _ _ _ [W "constraint"; W "add"]) by (apply Hs || apply Ht || apply Hn || done).
    rewrite (lex_prefix (L " FOREIGN KEY (") _ [Sym 40; W "key"; W "foreign"]) by done.
    rewrite lex_names by done. rewrite (lex_prefix (L ") REFERENCES ") _ [W "references"; Sym 41]) by done.
    rewrite lex_qa by (apply Hs' || apply Ht' || done). rewrite (lex_prefix (L " (") _ [Sym 40]) by done.
    rewrite lex_names by done. rewrite (lex_prefix (L ") ") _ [Sym 41]) by done.
    rewrite (lex_app _ _ _ Hw) by done.
    destruct (lex (L " " ++ u ++ L " " ++ dl ++ L ";")) as [x|]; [|done]. subst p.
    cbn. rewrite <- ?app_assoc. cbn. rewrite <- ?app_assoc. done. }
  unfold read_statement. rewrite E. destruct (lex (L " " ++ u ++ L " " ++ dl ++ L ";")) as [x|]; [|done].
  ob. rewrite <- app_assoc. cbn [app].
  destruct (one_statement (p ++ Word w :: x)) as [l|] eqn:El; [|done].
  apply one_keeps in El as [y ->]; [|done]. ob. subst p. rewrite <- !app_assoc. cbn [app].
  rewrite read_alter, read_add_constraint, read_foreign by done.
  rewrite names_group. ob. destruct (name_list _) as [cs'|]; [|done]. ob.
  assert (R : forall l, keywords ["references"] (W "references" :: l) = Some l) by done. rewrite R. ob.
  unfold qualified_name. cbn [name name_of]. ob. rewrite (proj2 Hs'). cbn [symbol N.eqb Pos.eqb]. ob.
  cbn [name name_of]. ob. rewrite (proj2 Ht'). rewrite names_group. ob.
  destruct (name_list _) as [tcs'|]; [|done]. ob.
  assert (M : match_of (Word w :: y) = Some (MatchSimple, Word w :: y)) by (destruct_or! Hws; subst w; reflexivity).
  assert (A : actions 3 None None (Word w :: y) = Some (None, None, Word w :: y)) by (destruct_or! Hws; subst w; reflexivity).
  assert (D : deferral_of (Word w :: y) = None).
  { destruct_or! Hws; subst w; destruct y as [|[]]; reflexivity. }
  rewrite M. ob. rewrite A. ob. by rewrite D.
Qed.

(** ** Indexes and views *)

Lemma spelled_keys ks : Forall (spelled (fun l => clear is_comma 0 l = Some 0)) ks ->
  exists ls, Forall2 (fun x a => lex x = Some a) ks ls /\ mapM lex ks = Some ls /\
    Forall (fun a => a <> [] /\ clear is_comma 0 a = Some 0) ls /\ Forall no_semicolon ls.
Proof.
  intros H. induction H as [|k ks Hk H (ls & H1 & H2 & H3 & H4)]; [exists []; split_and!; by constructor|].
  destruct Hk as (l & Hl & Hne & Hs & Hc). exists (l :: ls). split_and!; [by constructor| |by constructor|by constructor].
  cbn. rewrite Hl. cbn. by rewrite H2.
Qed.
Lemma read_create_index_text s t n u m ks : well_spelled (CreateIndex s t n u m ks) ->
  exists m' ls, word_meant m = Some m' /\ mapM lex ks = Some ls /\
    read_statement (render_sql (CreateIndex s t n u m ks)) =
      match ks with [] => None | _ => Some (DoCreateIndex n s t u m' ls) end.
Proof.
  intros (Hs & Ht & Hn & (w & Hw & Hr & Hc) & Hk). destruct (spelled_keys ks Hk) as (ls & H1 & H2 & H3 & H4).
  exists w, ls. unfold word_meant. rewrite Hw. split_and!; [done|done|].
  pose proof (commas_semicolon ls H4).
  assert (Hcl : clear never 0 (commas ls) = Some 0).
  { apply clear_commas; [done|]. eapply Forall_impl; [exact H3|]. intros a [_ Ha]. by eapply clear_never. }
  rewrite (read_with _ (W "create" :: (if u then [W "unique"; W "index"] else [W "index"]) ++ [Quoted n; W "on"; Quoted s; Sym 46; Quoted t;
    W "using"; Word w; Sym 40] ++ commas ls ++ [Sym 41])).
  - rewrite read_create.
    assert (E : create_index_of u ([Quoted n; W "on"; Quoted s; Sym 46; Quoted t; W "using"; Word w; Sym 40] ++ commas ls ++ [Sym 41]) =
      match ks with [] => None | _ => Some (DoCreateIndex n s t u w ls) end).
    { cbn [app]. rewrite read_index by (done || by right). destruct ks as [|k ks].
      - inversion H1; subst. done.
      - rewrite comma_separated_commas; [done|done|]. by inversion H1. }
    destruct u; cbn [app] in *; [by rewrite read_create_unique_index|by rewrite read_create_index].
  - cbn [render_sql]. rewrite (lex_prefix (L "CREATE ") _ [W "create"]) by done.
    assert (Hu : forall r, separated r -> lex ((if u then L "UNIQUE INDEX" else L "INDEX") ++ r) =
      app (if u then [W "unique"; W "index"] else [W "index"]) <$> lex r).
    { intros r Hsep. by apply lex_app; [destruct u|]. }
    rewrite Hu by done. rewrite (lex_prefix (L " ") _ []) by done. rewrite lex_qn by (apply Hn || done).
    rewrite (lex_prefix (L " ON ") _ [W "on"]) by done. rewrite lex_qa by (apply Hs || apply Ht || done).
    rewrite (lex_prefix (L " USING ") _ [W "using"]) by done. rewrite (lex_app _ _ _ Hw) by done.
    rewrite (lex_prefix (L " (") _ [Sym 40]) by done. rewrite (lex_list _ ls) by done.
    destruct u; cbn; by rewrite <- ?app_assoc.
  - destruct u; semis.
Qed.
Lemma one_app p l : no_semicolon p -> l <> [] -> one_statement (p ++ l) = app p <$> one_statement l.
Proof.
  intros Hp Hl. destruct l as [|u x _] using rev_ind; [done|]. unfold one_statement.
  rewrite app_assoc, !rev_app_distr. cbn [rev app]. destruct (is_semicolon u) eqn:Eu.
  - rewrite rev_app_distr, !rev_involutive, existsb_app, Hp. cbn. by destruct (existsb is_semicolon x).
  - rewrite <- app_assoc, existsb_app, Hp. cbn [orb]. by destruct (existsb is_semicolon (x ++ [u])).
Qed.
Lemma read_create_view_text s v q : well_spelled (CreateView s v q) ->
  exists l, query_meant q = Some l /\ read_statement (render_sql (CreateView s v q)) = Some (DoCreateView s v l).
Proof.
  intros (Hs & Hv & l & Hq). exists l. split; [done|]. unfold query_meant in Hq.
  destruct (lex q) as [l0|] eqn:E0; [|done]. cbn [mbind option_bind] in Hq.
  destruct (one_statement l0) as [l1|] eqn:E1; [|done]. cbn [mbind option_bind] in Hq.
  destruct l1 as [|t1 l1]; [done|]. injection Hq as <-. unfold read_statement.
  assert (E : lex (render_sql (CreateView s v q)) = Some ([W "create"; W "view"; Quoted s; Sym 46; Quoted v; W "as"] ++ l0)).
  { cbn [render_sql]. rewrite (lex_prefix (L "CREATE VIEW ") _ [W "view"; W "create"]) by done.
    rewrite lex_qa by (apply Hs || apply Hv || done). rewrite (lex_prefix (L " AS ") _ [W "as"]) by done. by rewrite E0. }
  rewrite E. ob. rewrite one_app; [|done|by intros ->]. rewrite E1. ob. cbn [app].
  by rewrite read_create, read_create_view by done.
Qed.

(** ** Dropping *)

Lemma read_drop_text s n : nameable s -> nameable n ->
  read_statement (render_sql (DropTable s n)) = Some (DoDropTable s n) /\
  read_statement (render_sql (DropIndex s n)) = Some (DoDropIndex s n) /\
  read_statement (render_sql (DropSequence s n)) = Some (DoDropSequence s n) /\
  read_statement (render_sql (DropFunction s n)) = Some (DoDropFunction s n) /\
  read_statement (render_sql (DropView s n)) = Some (DoDropView s n).
Proof.
  intros Hs Hn. cbn [render_sql].
  assert (E : forall k w mk, lex_from Between [] (L "DROP " ++ k ++ L " ") = Some (Between, [w; W "drop"]) ->
    is_semicolon w = false -> (statement_of [W "drop"; w; Quoted s; Sym 46; Quoted n] = Some (mk s n)) ->
    read_statement ((L "DROP " ++ k ++ L " ") ++ sql_qa s n ++ L ";") = Some (mk s n) /\
    read_statement ((L "DROP " ++ k ++ L " ") ++ sql_qa s n) = Some (mk s n)).
  { intros k w mk Hk Hw Hmk. split.
    - rewrite (read_with _ [W "drop"; w; Quoted s; Sym 46; Quoted n]); [done| |].
      + rewrite (lex_prefix _ _ _ Hk). by rewrite lex_qa by (apply Hs || apply Hn || done).
      + unfold no_semicolon. cbn. by rewrite Hw.
    - rewrite (read_without _ [W "drop"; w; Quoted s; Sym 46; Quoted n]); [done| |].
      + rewrite (lex_prefix _ _ _ Hk). rewrite <- (app_nil_r (sql_qa s n)). by rewrite lex_qa by (apply Hs || apply Hn || done).
      + unfold no_semicolon. cbn. by rewrite Hw. }
  split_and!.
  - apply (E (L "TABLE") (W "table") DoDropTable); [done|done|]. by rewrite read_drop, read_drop_table.
  - apply (E (L "INDEX") (W "index") DoDropIndex); [done|done|]. by rewrite read_drop, read_drop_index.
  - apply (E (L "SEQUENCE") (W "sequence") DoDropSequence); [done|done|]. by rewrite read_drop, read_drop_sequence.
  - apply (E (L "FUNCTION") (W "function") DoDropFunction); [done|done|]. by rewrite read_drop, read_drop_function.
  - apply (E (L "VIEW") (W "view") DoDropView); [done|done|]. by rewrite read_drop, read_drop_view.
Qed.

(** ** Numbers and sequences *)

Lemma number_acc u p : number (Zpos p) (digits u) = Some (Zpos (Pos.of_uint_acc u p)).
Proof.
  revert p. induction u as [|u IH|u IH|u IH|u IH|u IH|u IH|u IH|u IH|u IH|u IH]; intros p; [done|..];
    cbn [digits number];
    cbn [is_digit andb N.leb N.compare Pos.compare Pos.compare_cont];
    cbn [Pos.of_uint_acc]; rewrite <- IH; f_equal; lia.
Qed.
Lemma number_digits u : number 0 (digits u) = Some (Z.of_uint u).
Proof.
  unfold Z.of_uint.
  induction u as [|u IH|u IH|u IH|u IH|u IH|u IH|u IH|u IH|u IH|u IH]; [done|exact IH|..];
    cbn [digits number]; cbn [is_digit andb N.leb N.compare Pos.compare Pos.compare_cont]; apply number_acc.
Qed.
Lemma digit_run d0 u acc : lex_from (InNumber d0) acc (digits u) = Some (InNumber (rev (digits u) ++ d0), acc).
Proof.
  revert d0. induction u as [|u IH|u IH|u IH|u IH|u IH|u IH|u IH|u IH|u IH|u IH]; intros d0; [done|..];
    cbn [digits lex_from]; cbn [lex_step is_digit orb andb N.leb N.compare Pos.compare Pos.compare_cont];
    cbn [rev]; rewrite <- app_assoc; apply IH.
Qed.
Lemma lex_digits u : u <> Decimal.Nil -> lex (digits u) = Some [Number (digits u)].
Proof.
  intros Hu. unfold lex.
  destruct u as [|u|u|u|u|u|u|u|u|u|u]; [done|..]; cbn [digits lex_from];
    match goal with |- context [lex_step Between [] ?c] =>
      change (lex_step Between [] c) with (Some (InNumber [c], @nil token)) end;
    cbv iota beta; rewrite digit_run; cbn [end_token fmap option_fmap option_map];
    rewrite rev_app_distr, rev_involutive; done.
Qed.
Definition int_tokens (z : Z) : list token :=
  match Z.to_int z with
  | Decimal.Pos u => [Number (digits u)]
  | Decimal.Neg u => [Sym 45; Number (digits u)]
  end.
Lemma to_int_digits z : match Z.to_int z with Decimal.Pos u | Decimal.Neg u => u <> Decimal.Nil end.
Proof. destruct z; cbn; [done|apply DecimalPos.Unsigned.to_uint_nonnil..]. Qed.
Lemma lex_int z r : separated r -> lex (show_int z ++ r) = app (int_tokens z) <$> lex r.
Proof.
  intros Hr. apply lex_app; [|done]. unfold show_int, int_tokens. pose proof (to_int_digits z) as Hz.
  destruct (Z.to_int z) as [u|u]; [by apply lex_digits|]. pose proof (lex_digits u Hz) as Hl.
  unfold lex in *. destruct u as [|u|u|u|u|u|u|u|u|u|u]; [done|..]; cbn [digits lex_from] in *;
    (match goal with |- context [lex_step Between [] 45%N] => change (lex_step Between [] 45%N) with (Some (AfterDash, @nil token)) end);
    cbv iota beta;
    match goal with |- context [lex_step AfterDash [] ?c] =>
      change (lex_step AfterDash [] c) with (Some (InNumber [c], [Sym 45])) end;
    cbv iota beta; rewrite digit_run; cbn [end_token fmap option_fmap option_map];
    cbn [rev]; rewrite rev_app_distr, rev_involutive; done.
Qed.
Lemma integer_read z l : integer (int_tokens z ++ l) = Some (z, l).
Proof.
  pose proof (DecimalZ.of_to z) as H. unfold int_tokens. destruct (Z.to_int z) as [u|u]; cbn [app integer].
  - rewrite number_digits. cbn in *. by rewrite H.
  - cbn [N.eqb Pos.eqb]. rewrite number_digits. cbn in *. by rewrite H.
Qed.
Lemma int_semicolon z : existsb is_semicolon (int_tokens z) = false.
Proof. unfold int_tokens. by destruct (Z.to_int z). Qed.
Lemma read_create_sequence_text s n ty inc mn mx st ca cy : well_spelled (CreateSequence s n ty inc mn mx st ca cy) ->
  exists q, sequence_meant ty inc mn mx st ca cy = Some q /\
    read_statement (render_sql (CreateSequence s n ty inc mn mx st ca cy)) = Some (DoCreateSequence s n q).
Proof.
  intros (Hs & Hn & w & Hw & Hr & Hc). exists (SequenceSpec w inc mn mx st ca cy).
  unfold sequence_meant, word_meant. rewrite Hw. split; [done|].
  rewrite (read_with _ ([W "create"; W "sequence"; Quoted s; Sym 46; Quoted n; W "as"; Word w; W "increment"; W "by"] ++
    int_tokens inc ++ W "minvalue" :: int_tokens mn ++ W "maxvalue" :: int_tokens mx ++
    W "start" :: W "with" :: int_tokens st ++ W "cache" :: int_tokens ca ++ if cy then [W "cycle"] else [W "no"; W "cycle"])).
  - cbn [app]. rewrite read_create, read_create_sequence by done. unfold sequence_of.
    assert (K1 : forall k l, keywords [k] (Word (L k) :: l) = Some l).
    { intros k l. cbn. assert (E : str_eqb (L k) (L k) = true); [|by rewrite E].
      generalize (L k). intros x. induction x as [|c x IH]; [done|]. cbn. by rewrite N.eqb_refl. }
    assert (K2 : forall k k' l, keywords [k; k'] (Word (L k) :: Word (L k') :: l) = Some l).
    { intros k k' l. pose proof (K1 k (Word (L k') :: l)) as H1. pose proof (K1 k' l) as H2. cbn in *.
      destruct (str_eqb (L k) (L k)); [|done]. exact H2. }
    rewrite K1. ob. cbn [name name_of]. rewrite decide_False by done. ob. rewrite Hc.
    rewrite K2. ob. rewrite integer_read. ob. rewrite K1. ob. rewrite integer_read. ob.
    rewrite K1. ob. rewrite integer_read. ob. rewrite K2. ob. rewrite integer_read. ob.
    rewrite K1. ob. rewrite integer_read. ob. by destruct cy.
  - cbn [render_sql]. rewrite (lex_prefix (L "CREATE SEQUENCE ") _ [W "sequence"; W "create"]) by done.
    rewrite lex_qa by (apply Hs || apply Hn || done). rewrite (lex_prefix (L " AS ") _ [W "as"]) by done.
    rewrite (lex_app _ _ _ Hw) by done.
    rewrite (lex_prefix (L " INCREMENT BY ") _ [W "by"; W "increment"]) by done. rewrite lex_int by done.
    rewrite (lex_prefix (L " MINVALUE ") _ [W "minvalue"]) by done. rewrite lex_int by done.
    rewrite (lex_prefix (L " MAXVALUE ") _ [W "maxvalue"]) by done. rewrite lex_int by done.
    rewrite (lex_prefix (L " START WITH ") _ [W "with"; W "start"]) by done. rewrite lex_int by done.
    rewrite (lex_prefix (L " CACHE ") _ [W "cache"]) by done. rewrite lex_int by done.
    rewrite (lex_prefix (L " ") _ []) by done.
    assert (E : lex ((if cy then L "CYCLE" else L "NO CYCLE") ++ L ";") =
                Some ((if cy then [W "cycle"] else [W "no"; W "cycle"]) ++ [Sym 59])) by by destruct cy.
    rewrite E. cbn. repeat (rewrite <- app_assoc; cbn). done.
  - pose proof (int_semicolon inc). pose proof (int_semicolon mn). pose proof (int_semicolon mx).
    pose proof (int_semicolon st). pose proof (int_semicolon ca).
    unfold no_semicolon. cbn. repeat (rewrite existsb_app; cbn).
    repeat match goal with H : existsb is_semicolon _ = false |- _ => rewrite H; clear H end. by destruct cy.
Qed.

(** ** Functions *)

Lemma until_reaches stop (X Z : list token) :
  (forall k, until stop (S k) Z = (Z, [])) -> until stop 0 Z = (Z, []) \/ until stop 0 Z = ([], Z) ->
  forall d a b, until stop d (X ++ Z) = (a, b) -> b = [] \/ exists Y, b = Y ++ Z.
Proof.
  intros H1 H0. induction X as [|t X IH]; intros d a b H; cbn [app] in H.
  - destruct d as [|d].
    + destruct H0 as [H0|H0]; rewrite H0 in H; injection H as <- <-; [by left|right; by exists []].
    + rewrite H1 in H. injection H as <- <-. by left.
  - cbn [until] in H. destruct d as [|d].
    + destruct (stop t || closes t); [injection H as <- <-; right; by exists (t :: X)|].
      destruct (until stop _ (X ++ Z)) as [a' b'] eqn:E. injection H as <- <-. by eapply IH.
    + destruct (until stop _ (X ++ Z)) as [a' b'] eqn:E. injection H as <- <-. by eapply IH.
Qed.
Lemma until_deeper stop l : clear never 0 l = Some 0 -> forall k r, until stop (S k) (l ++ r) =
  let '(a, b) := until stop (S k) r in (l ++ a, b).
Proof.
  intros H k r.
  assert (G : forall l d d', clear never d l = Some d' -> forall r, until stop (S k + d) (l ++ r) =
    let '(a, b) := until stop (S k + d') r in (l ++ a, b)).
  { clear. induction l as [|t l IH]; intros d d' H r; cbn [clear] in H.
    - injection H as ->. cbn [app]. by destruct (until stop _ r).
    - cbn [app until Nat.add]. destruct d as [|d].
      + cbn [never orb] in H. destruct (closes t) eqn:Ec; [done|].
        destruct (opens t).
        * specialize (IH _ _ H r). replace (S k + 1) with (S (S (k + 0))) in IH by lia.
          rewrite IH. by destruct (until stop _ r).
        * specialize (IH _ _ H r). cbn [Nat.add] in IH. rewrite IH. by destruct (until stop _ r).
      + destruct (opens t).
        * specialize (IH _ _ H r). replace (S k + S (S d)) with (S (S (k + S d))) in IH by lia.
          rewrite IH. by destruct (until stop _ r).
        * destruct (closes t).
          -- specialize (IH _ _ H r). replace (S k + d) with (k + S d) in IH by lia.
             rewrite IH. by destruct (until stop _ r).
          -- specialize (IH _ _ H r). cbn [Nat.add] in IH. rewrite IH. by destruct (until stop _ r). }
  specialize (G l 0 0 H r). by rewrite Nat.add_0_r in G.
Qed.
(** No clause of a function begins like a type. *)
Lemma no_clause t R tl la vo bo : function_stop t = false -> function_options la vo bo (t :: R ++ tl) = None.
Proof.
  destruct t as [a| | | |]; try done. intros H.
  cbn [function_options].
  assert (V : existsb (str_eqb a) volatilities = false).
  { destruct (existsb (str_eqb a) volatilities) eqn:E; [|done]. apply existsb_exists in E as (x & Hx & Ex).
    revert H. cbn [function_stop]. intros H.
    assert (existsb (str_eqb a) (L <$> ["returns"; "language"; "as"; "immutable"; "stable"; "volatile";
      "called"; "strict"; "security"; "cost"; "rows"; "set"; "window"; "parallel"; "support"; "leakproof";
      "not"; "external"; "transform"; "return"; "begin"]%string) = true); [|congruence].
    apply existsb_exists. exists x. split; [|done]. unfold volatilities in Hx. cbn in Hx |- *. intuition. }
  rewrite V. cbn [function_stop] in H. cbn in H.
  destruct (str_eqb a (L "language")); [by rewrite ?orb_true_r in H|].
  destruct (str_eqb a (L "as")); [by rewrite ?orb_true_r in H|]. done.
Qed.
Lemma options_returns n Y t R tl la vo bo : length Y <= n -> function_stop t = false ->
  function_options la vo bo (Y ++ W "returns" :: t :: R ++ tl) = None.
Proof.
  intros Hn Ht. revert Y la vo bo Hn. induction n as [|n IH]; intros Y la vo bo Hn.
  { destruct Y; [done|cbn in Hn; lia]. }
  destruct Y as [|y Y]; [done|]. cbn [app]. destruct y as [a| | | |]; try done. cbn [function_options]. cbn in Hn.
  destruct (existsb (str_eqb a) volatilities).
  { destruct vo; [done|]. apply IH. lia. }
  destruct (str_eqb a (L "language")).
  { destruct la; [done|]. destruct Y as [|y Y]; cbn [app].
    - by apply no_clause.
    - cbn in Hn. destruct y; try done; apply IH; lia. }
  destruct (str_eqb a (L "as")); [|done].
  destruct bo; [done|]. destruct Y as [|y Y]; cbn [app]; [done|]. cbn in Hn. destruct y; try done. apply IH. lia.
Qed.
Lemma function_returns B R w v : R <> [] -> clear function_stop 0 R = Some 0 ->
  function_of (B ++ W "returns" :: R ++ [W "language"; Word w; Word v]) = None.
Proof.
  intros HR HcR. destruct R as [|t R]; [done|].
  assert (Ht : function_stop t = false).
  { cbn [clear] in HcR. by destruct (function_stop t). }
  pose proof (clear_never _ _ _ _ HcR) as HcN.
  set (tl := [W "language"; Word w; Word v]).
  assert (Hdeep : forall stop k, until stop (S k) (W "returns" :: (t :: R) ++ tl) = (W "returns" :: (t :: R) ++ tl, [])).
  { intros stop k. change (W "returns" :: (t :: R) ++ tl) with ([W "returns"] ++ (t :: R) ++ tl).
    rewrite (until_deeper stop [W "returns"]) by done. rewrite (until_deeper stop (t :: R)) by done.
    subst tl. done. }
  assert (Hnil : function_options None None None [] = Some (None, None, None)) by done.
  unfold function_of. destruct (group _) as [[args l]|] eqn:Eg; [|done]. ob.
  assert (Hl : exists Y, l = Y ++ W "returns" :: (t :: R) ++ tl).
  { unfold group in Eg. change (fun _ : token => false) with never in Eg.
    destruct (B ++ W "returns" :: (t :: R) ++ tl) as [|b0 l0] eqn:EB; [done|].
    destruct B as [|b B]; [injection EB as <- <-; done|]. injection EB as <- <-.
    destruct b as [| | | |c]; try done. cbn [symbol mbind option_bind] in Eg. destruct (c =? 40)%N; [|done].
    cbn [mbind option_bind] in Eg.
    destruct (until never 0 _) as [a b] eqn:Eu.
    apply until_reaches in Eu as [->|[Y ->]]; [done| | |].
    - destruct Y as [|y Y]; cbn [app] in Eg; [done|].
      destruct y as [| | | |c']; try done. cbn [symbol mbind option_bind] in Eg. destruct (c' =? 41)%N; [|done].
      injection Eg as <- <-. by exists Y.
    - apply Hdeep.
    - left. apply (until_all _ _ _ 0). change (clear never 0 ([W "returns"] ++ (t :: R) ++ tl) = Some 0).
      rewrite (clear_app never 0 [W "returns"] 0) by done. rewrite (clear_app never 0 (t :: R) 0) by done. done. }
  destruct Hl as [Y ->]. destruct (words_of _ _) as [l|] eqn:Ek; [|done]. ob.
  assert (HY : Y = [] /\ l = (t :: R) ++ tl \/ exists X, l = X ++ W "returns" :: (t :: R) ++ tl).
  { destruct Y as [|y Y].
    - left. cbn [app] in Ek.
      assert (K : forall l, keywords ["returns"] (W "returns" :: l) = Some l) by done. rewrite K in Ek.
      injection Ek as <-. done.
    - right. exists Y. cbn [app] in Ek. destruct y as [a| | | |]; try done. cbn in Ek.
      destruct (str_eqb a (L "returns")); [|done]. by injection Ek as <-. }
  destruct HY as [[-> ->]|[X ->]].
  - rewrite (until_app _ _ _ _ _ HcR). subst tl.
    assert (E : until function_stop 0 [W "language"; Word w; Word v] = ([], [W "language"; Word w; Word v])) by reflexivity.
    rewrite E, app_nil_r.
    assert (F : function_options None None None [W "language"; Word w; Word v] =
      if existsb (str_eqb v) volatilities then Some (Some w, Some v, None)
      else if str_eqb v (L "language") then None else if str_eqb v (L "as") then None else None) by reflexivity.
    rewrite F. repeat case_match; done.
  - destruct (until function_stop 0 _) as [ret l] eqn:Eu. destruct ret as [|r0 ret]; [done|].
    apply until_reaches in Eu as [->|[Y' ->]]; [done| | |].
    + cbn [app]. rewrite (options_returns (length Y')) by done. done.
    + apply Hdeep.
    + right. done.
Qed.
Lemma one_with_or l : one_statement (l ++ [Sym 59]) = None \/ one_statement (l ++ [Sym 59]) = Some l.
Proof.
  unfold one_statement. rewrite rev_app_distr. cbn [rev app is_semicolon N.eqb Pos.eqb]. rewrite rev_involutive.
  destruct (existsb _ _); [by left|by right].
Qed.
Lemma read_create_function_text s f body lang ret vol x : well_spelled (CreateFunction s f body lang ret vol) ->
  function_meant body lang ret vol = Some x ->
  read_statement (render_sql (CreateFunction s f body lang ret vol)) = None.
Proof.
  intros (Hs & Hf & [B HB] & (R & HR & HRne & _ & HRc) & (w & Hw & _) & _) Hm.
  unfold function_meant, word_meant in Hm. rewrite HR, Hw in Hm. cbn [mbind option_bind] in Hm.
  destruct (lex vol) as [[|[v| | | |] []]|] eqn:Ev; try done. clear Hm.
  unfold read_statement.
  assert (E : lex (render_sql (CreateFunction s f body lang ret vol)) =
    Some ((W "create" :: W "function" :: Quoted s :: Sym 46 :: Quoted f :: B ++ W "returns" :: R ++ [W "language"; Word w; Word v]) ++ [Sym 59])).
  { cbn [render_sql]. rewrite (lex_prefix (L "CREATE FUNCTION ") _ [W "function"; W "create"]) by done.
    rewrite lex_qa by (apply Hs || apply Hf || done). rewrite (lex_prefix (L " ") _ []) by done.
    rewrite (lex_app _ _ _ HB) by done. rewrite (lex_prefix (L " RETURNS ") _ [W "returns"]) by done.
    rewrite (lex_app _ _ _ HR) by done. rewrite (lex_prefix (L " LANGUAGE ") _ [W "language"]) by done.
    rewrite (lex_app _ _ _ Hw) by done. rewrite (lex_prefix (L " ") _ []) by done. rewrite (lex_app _ _ _ Ev) by done.
    cbn. repeat (rewrite <- app_assoc; cbn). done. }
  rewrite E. cbn [mbind option_bind].
  destruct (one_with_or (W "create" :: W "function" :: Quoted s :: Sym 46 :: Quoted f :: B ++ W "returns" :: R ++ [W "language"; Word w; Word v])) as [->| ->];
    [done|]. cbn [mbind option_bind].
  rewrite read_create, read_create_function, function_returns by done. done.
Qed.

(** ** Schemas *)

(** No token is longer than the text it is read from. *)
Definition weight (t : token) : nat :=
  match t with
  | Word w => length w | Quoted n => length n + 2 | Number d => length d | Quote s => length s + 2 | Sym _ => 1
  end.
Definition weights (l : list token) : nat := sum_list_with weight l.
Definition mode_weight (m : mode) : nat :=
  match m with
  | Between => 0 | InWord w => length w | InNumber d => length d
  | InQuoted n => length n + 1 | QuotedEnds n => length n + 2
  | InQuote s => length s + 1 | QuoteEnds s => length s + 2
  | AfterDash => 1 | AfterSlash => 1
  end.
Lemma weights_cons t l : weights (t :: l) = weight t + weights l.
Proof. done. Qed.
Lemma begin_weight acc c m acc' : begin_token acc c = Some (m, acc') ->
  mode_weight m + weights acc' <= weights acc + 1.
Proof. unfold begin_token. intros H. repeat case_match; simplify_eq; cbn; unfold weights; cbn; lia. Qed.
Lemma end_weight m acc acc' : end_token m acc = Some acc' -> weights acc' <= mode_weight m + weights acc.
Proof.
  destruct m as [|w|d|n|n|s|s| |]; cbn; intros H; repeat case_match; simplify_eq;
    rewrite ?weights_cons; cbn; rewrite ?fmap_length, ?rev_length, ?app_length; cbn; rewrite ?rev_length; lia.
Qed.
Lemma step_weight m acc c m' acc' : lex_step m acc c = Some (m', acc') ->
  mode_weight m' + weights acc' <= mode_weight m + weights acc + 1.
Proof.
  unfold lex_step. intros H.
  assert (N : match end_token m acc with Some acc => begin_token acc c | None => None end = Some (m', acc') ->
    mode_weight m' + weights acc' <= mode_weight m + weights acc + 1).
  { destruct (end_token m acc) eqn:E; [|done]. intros G. apply begin_weight in G. apply end_weight in E. lia. }
  destruct m; repeat case_match; simplify_eq; try (by apply N); cbn; lia.
Qed.
Lemma lex_weight s l : lex s = Some l -> weights l <= length s.
Proof.
  unfold lex.
  assert (G : forall m acc m' acc', lex_from m acc s = Some (m', acc') ->
    mode_weight m' + weights acc' <= mode_weight m + weights acc + length s).
  { induction s as [|c s IH]; intros m acc m' acc' H; cbn in *; [injection H as <- <-; lia|].
    destruct (lex_step m acc c) as [[m1 acc1]|] eqn:E; [|done]. apply IH in H. apply step_weight in E. lia. }
  destruct (lex_from Between [] s) as [[m acc]|] eqn:E; [|done]. specialize (G _ _ _ _ E). cbn in G.
  destruct (end_token m acc) as [a|] eqn:Ea; [|done]. intros [= <-]. apply end_weight in Ea.
  assert (R : forall l, weights (rev l) = weights l).
  { clear. intros l. unfold weights. induction l as [|t l IH]; [done|]. cbn. rewrite sum_list_with_app, IH. cbn. lia. }
  rewrite R. lia.
Qed.
Lemma clip_prefix w : exists r, w = clip w ++ r.
Proof.
  unfold clip. generalize 63. induction w as [|c w IH]; intros k; [by exists []|]. cbn.
  destruct (Nat.leb _ _); [|by exists (c :: w)]. destruct (IH (k - byte_length c)) as [r Hr]. exists r. cbn. by f_equal.
Qed.
Lemma schema_name n l : lex n = Some l ->
  (exists t, l = [t] /\ name_of t = Some n) <-> (lex n = Some [Word n] /\ n ∉ reserved /\ clip n = n).
Proof.
  intros Hl. pose proof (lex_weight _ _ Hl) as Hw. split.
  - intros (t & -> & Ht). destruct t as [w|m| | |]; try done; cbn [name_of] in Ht; unfold weights in Hw; cbn in Hw.
    + destruct (decide (w ∈ reserved)) as [?|Hr]; [done|]. injection Ht as Hc.
      destruct (clip_prefix w) as [r Er]. rewrite Hc in Er.
      assert (r = []) as ->. { destruct r; [done|]. subst w. rewrite app_length in Hw. cbn in Hw. lia. }
      rewrite app_nil_r in Er. subst w. done.
    + injection Ht as Hc. destruct (clip_prefix m) as [r Er]. rewrite Hc in Er. subst m.
      rewrite app_length in Hw. lia.
  - intros (H & Hr & Hc). rewrite Hl in H. injection H as ->. exists (Word n). split; [done|]. cbn [name_of].
    rewrite decide_False by done. by rewrite Hc.
Qed.
Lemma read_schema_text n l : lex n = Some l ->
  read_statement (render_sql (CreateSchema n)) = match l with [t] => DoCreateSchema <$> name_of t | _ => None end /\
  read_statement (render_sql (DropSchema n)) = match l with [t] => DoDropSchema <$> name_of t | _ => None end.
Proof.
  intros Hl.
  assert (E1 : lex (render_sql (CreateSchema n)) = Some ((W "create" :: W "schema" :: l) ++ [Sym 59])).
  { cbn [render_sql]. rewrite (lex_prefix (L "CREATE SCHEMA ") _ [W "schema"; W "create"]) by done.
    by rewrite (lex_app _ _ _ Hl) by done. }
  assert (E2 : lex (render_sql (DropSchema n)) = Some ((W "drop" :: W "schema" :: l) ++ [Sym 59])).
  { cbn [render_sql]. rewrite (lex_prefix (L "DROP SCHEMA ") _ [W "schema"; W "drop"]) by done.
    by rewrite (lex_app _ _ _ Hl) by done. }
  destruct (existsb is_semicolon l) eqn:Es.
  - assert (N : forall a, existsb is_semicolon a = false -> one_statement ((a ++ l) ++ [Sym 59]) = None).
    { intros a Ha. unfold one_statement. rewrite rev_app_distr. cbn [rev app is_semicolon N.eqb Pos.eqb].
      by rewrite rev_involutive, existsb_app, Ha, Es. }
    assert (M : forall (mk : str -> statement), match l with [t] => mk <$> name_of t | _ => None end = None).
    { intros mk. destruct l as [|[] []]; done. }
    unfold read_statement. rewrite E1, E2, !M. ob.
    pose proof (N [W "create"; W "schema"] eq_refl) as N1. pose proof (N [W "drop"; W "schema"] eq_refl) as N2.
    cbn [app] in *. by rewrite N1, N2.
  - rewrite (read_with _ _ E1) by done. rewrite (read_with _ _ E2) by done.
    rewrite read_create, read_drop, read_create_schema, read_drop_schema.
    destruct l as [|t [|t' l]]; [done| |]; cbn [name]; destruct (name_of t); done.
Qed.

(** ** Every statement *)

Lemma created_columns_meant cs xs :
  mapM (fun c => pair (cc_name c) <$> column_meant (cc_type c) false (cc_default c)) cs = Some xs ->
  mapM (fun c => pair (cc_name c) <$> column_meant (cc_type c) (cc_notnull c) (cc_default c)) cs = Some xs <->
  Forall (fun c => cc_notnull c = false) cs.
Proof.
  revert xs. induction cs as [|c cs IH]; intros xs H; [split; [by constructor|done]|].
  cbn in H. destruct (column_meant (cc_type c) false (cc_default c)) as [x|] eqn:Ex; [|done]. cbn in H.
  destruct (mapM _ cs) as [ys|] eqn:Ey; [|done]. injection H as <-. specialize (IH _ eq_refl).
  assert (Ex' : column_meant (cc_type c) (cc_notnull c) (cc_default c) = Some (ColumnSpec (cs_type x) (cc_notnull c) (cs_default x)) /\
                cs_notnull x = false).
  { unfold column_meant in *. destruct (lex (cc_type c)); [|done]. cbn in *. destruct (default_meant _); [|done]. cbn in *.
    by injection Ex as <-. }
  destruct Ex' as [Ex' Hx]. rewrite Forall_cons, <- IH. cbn. rewrite Ex'. cbn.
  clear Ey. destruct (mapM (fun c => pair (cc_name c) <$> column_meant (cc_type c) (cc_notnull c) (cc_default c)) cs) as [zs|]; cbn.
  - split.
    + intros Hq. injection Hq as Hq ->. split; [|done]. rewrite <- Hx, <- Hq. done.
    + intros [Hc Hq]. injection Hq as ->. rewrite Hc. destruct x; cbn in *. by rewrite Hx.
  - split; [done|]. by intros [_ ?].
Qed.

Lemma says_reads c st : meant c = Some st ->
  (says (render_sql c) c <-> read_statement (render_sql c) = Some st).
Proof.
  intros H. unfold says. split; [|by eauto]. intros (st' & H' & Hr). rewrite H in H'. by injection H' as <-.
Qed.
Lemma says_nothing c : (forall st, meant c = Some st -> read_statement (render_sql c) <> Some st) -> ~ says (render_sql c) c.
Proof. intros H (st & Hm & Hr). by apply (H st). Qed.


Lemma says_iff c : well_spelled c -> (says (render_sql c) c <-> sayable c).
Proof.
  intros H. destruct c as [s t n e d i|s t n ty nn d|s t n cs s' t' tcs m u dl d i|s t n cs d i|s t n cs d i|s t n d i
    |s t n ty|s t n d|s t n nn|s t n d i|s t n d i|s t n d i|s f body lang ret vol|s t n u m ks|n|s n ty inc mn mx st ca cy
    |s t cs|s v q|s t n|s t n|s t n|s f|s n|s t n|n|s n|s t|s t n|s v|s t n n'].
  - (* AddCheck *)
    destruct H as (Hs & Ht & Hn & He). cbn [sayable].
    destruct d; [split; [by intros (? & ? & _)|by intros (? & _)]|].
    destruct i; [split; [by intros (? & ? & _)|by intros (_ & ? & _)]|].
    pose proof (read_add_check_text s t n e Hs Ht Hn He) as Hr. destruct He as (l & Hl & _).
    rewrite Hl in Hr. cbn [mbind option_bind] in Hr.
    unfold says. cbn [meant constraint_meant ck_deferrable ck_initially ck_expression negb andb guard_ mbind option_bind].
    unfold expression_meant. rewrite Hl. cbn [mbind option_bind]. rewrite Hr.
    destruct (group l) as [[a r]|] eqn:Eg; cbn [mbind option_bind].
    + destruct r as [|r0 r]; cbn [mbind option_bind]; [destruct a as [|a0 a]|].
      * split; [by intros (? & _ & ?)|]. intros (_ & _ & l' & a & [= <-] & Hg & Ha). rewrite Eg in Hg. by injection Hg as <-.
      * split; [intros _|by eauto]. split_and!; [done|done|]. by exists l, (a0 :: a).
      * assert (N : match a, r0 :: r with t0 :: a', [] => Some (DoAlterTable s t (ToAddConstraint n (KCheck (t0 :: a')))) | _, _ => None end = @None statement)
          by by destruct a.
        split; [intros (? & _ & G); by destruct a|]. intros (_ & _ & l' & a' & [= <-] & Hg & Ha). rewrite Eg in Hg. done.
    + split; [by intros (? & _ & ?)|]. intros (_ & _ & l' & a' & [= <-] & Hg & Ha). by rewrite Eg in Hg.
  - (* AddColumn *)
    destruct (read_add_column_text _ _ _ _ _ _ H) as (x & Hx & Hr). split; [|done]. intros (st & Hm & Hr').
    rewrite Hr in Hr'. injection Hr' as <-. cbn [meant] in Hm. unfold column_meant in *.
    destruct (lex ty); [|done]. cbn in *. destruct (default_meant d); [|done]. cbn in *. simplify_eq. by destruct nn.
  - (* AddForeignKey *)
    pose proof (read_add_foreign_key_text _ _ _ _ _ _ _ _ _ _ _ _ H) as Hr. split; [|done]. intros (st & _ & Hr').
    by rewrite Hr in Hr'.
  - (* AddPrimaryKey *)
    destruct H as (Hs & Ht & Hn & Hcs). destruct (read_add_key_text s t n cs d i Hs Ht Hn Hcs) as [Hr _].
    unfold says. rewrite Hr. clear Hr. cbn. unfold deferral_meant.
    destruct d, i, cs; cbn; split; try (by intros (? & ? & ?)); try (intros [? Hi]; try done; (by eauto) || by specialize (Hi eq_refl));
      intros (? & ? & ?); simplify_eq; done.
  - (* AddUnique *)
    destruct H as (Hs & Ht & Hn & Hcs). destruct (read_add_key_text s t n cs d i Hs Ht Hn Hcs) as [_ Hr].
    unfold says. rewrite Hr. clear Hr. cbn. unfold deferral_meant.
    destruct d, i, cs; cbn; split; try (by intros (? & ? & ?)); try (intros [? Hi]; try done; (by eauto) || by specialize (Hi eq_refl));
      intros (? & ? & ?); simplify_eq; done.
  - (* AlterCheck *)
    destruct H as (Hs & Ht & Hn). destruct (read_alter_constraint_text s t n d i Hs Ht Hn) as [_ Hr].
    unfold says. cbn [render_sql meant sayable]. rewrite Hr. clear Hr. unfold deferral_meant.
    destruct d, i; cbn; (split; [|by eauto]); intros (? & ? & ?); by simplify_eq.
  - (* AlterColumnSetDataType *)
    destruct (read_set_type_text _ _ _ _ H) as (l & Hl & Hr). split; [done|intros _]. eexists. split; [|exact Hr].
    cbn [meant]. by rewrite Hl.
  - (* AlterColumnSetDefault *)
    destruct (read_set_default_text _ _ _ _ H) as (l & Hl & Hr). split; [done|intros _]. eexists. split; [|exact Hr].
    cbn [meant]. by rewrite Hl.
  - (* AlterColumnSetNotNull *)
    destruct H as (Hs & Ht & Hn). split; [done|intros _]. eexists. split; [|by apply read_set_not_null_text]. done.
  - (* AlterForeignKey *)
    destruct H as (Hs & Ht & Hn). destruct (read_alter_constraint_text s t n d i Hs Ht Hn) as [_ Hr].
    unfold says. cbn [render_sql meant sayable]. rewrite Hr. clear Hr. unfold deferral_meant.
    destruct d, i; cbn; (split; [|by eauto]); intros (? & ? & ?); by simplify_eq.
  - (* AlterPrimaryKey *)
    destruct H as (Hs & Ht & Hn). destruct (read_alter_constraint_text s t n d i Hs Ht Hn) as [Hr _].
    unfold says. cbn [render_sql meant sayable]. rewrite Hr. clear Hr. unfold deferral_meant.
    destruct d, i; cbn; (split; [|intros Hi; (by eauto) || by specialize (Hi eq_refl)]); intros (? & ? & ?); by simplify_eq.
  - (* AlterUnique *)
    destruct H as (Hs & Ht & Hn). destruct (read_alter_constraint_text s t n d i Hs Ht Hn) as [Hr _].
    unfold says. cbn [render_sql meant sayable]. rewrite Hr. clear Hr. unfold deferral_meant.
    destruct d, i; cbn; (split; [|intros Hi; (by eauto) || by specialize (Hi eq_refl)]); intros (? & ? & ?); by simplify_eq.
  - (* CreateFunction *)
    split; [|done]. intros (st & Hm & Hr). cbn [meant] in Hm.
    destruct (function_meant body lang ret vol) as [x|] eqn:E; [|done].
    pose proof (read_create_function_text _ _ _ _ _ _ _ H E) as Hr'. by rewrite Hr' in Hr.
  - (* CreateIndex *)
    destruct (read_create_index_text _ _ _ _ _ _ H) as (m' & ls & Hm & Hls & Hr).
    unfold says. rewrite Hr. cbn [meant sayable]. rewrite Hm. cbn [mbind option_bind]. rewrite Hls. cbn [mbind option_bind].
    destruct ks; (split; [|by eauto]); by intros (? & ? & ?).
  - (* CreateSchema *)
    destruct H as [l Hl]. destruct (read_schema_text n l Hl) as [Hr _]. cbn [sayable]. rewrite <- (schema_name n l Hl).
    unfold says. rewrite Hr. cbn [meant]. split.
    + intros (st & [= <-] & G). destruct l as [|t [|]]; try done. exists t. split; [done|].
      destruct (name_of t) as [k|]; [|done]. cbn in G. by injection G as <-.
    + intros (t & -> & Ht). rewrite Ht. by eauto.
  - (* CreateSequence *)
    destruct (read_create_sequence_text _ _ _ _ _ _ _ _ _ H) as (q & Hq & Hr). split; [done|intros _]. eexists. split; [|exact Hr].
    cbn [meant]. by rewrite Hq.
  - (* CreateTable *)
    destruct (read_create_table_text _ _ _ H) as (xs & Hxs & Hr). cbn [sayable].
    rewrite <- (created_columns_meant cs xs Hxs). unfold says. rewrite Hr. cbn [meant]. split.
    + intros (st & Hm & [= <-]). clear Hxs Hr.
      destruct (mapM (fun c => pair (cc_name c) <$> column_meant (cc_type c) (cc_notnull c) (cc_default c)) cs) as [ys|]; [|done].
      cbn [mbind option_bind] in Hm. by injection Hm as ->.
    + intros ->. by eauto.
  - (* CreateView *)
    destruct (read_create_view_text _ _ _ H) as (q' & Hq & Hr). split; [done|intros _]. eexists. split; [|exact Hr].
    cbn [meant]. by rewrite Hq.
  - destruct H as (Hs & Ht & Hn). split; [done|intros _]. eexists. split; [done|]. by apply read_drops_constraint.
  - destruct H as (Hs & Ht & Hn). split; [done|intros _]. eexists. split; [done|]. by apply read_drop_column_text.
  - destruct H as (Hs & Ht & Hn). split; [done|intros _]. eexists. split; [done|]. by apply read_drops_constraint.
  - destruct H as (Hs & Hn). split; [done|intros _]. eexists. split; [done|]. by apply read_drop_text.
  - destruct H as (Hs & Hn). split; [done|intros _]. eexists. split; [done|]. by apply read_drop_text.
  - destruct H as (Hs & Ht & Hn). split; [done|intros _]. eexists. split; [done|]. by apply read_drops_constraint.
  - (* DropSchema *)
    destruct H as [l Hl]. destruct (read_schema_text n l Hl) as [_ Hr]. cbn [sayable]. rewrite <- (schema_name n l Hl).
    unfold says. rewrite Hr. cbn [meant]. split.
    + intros (st & [= <-] & G). destruct l as [|t [|]]; try done. exists t. split; [done|].
      destruct (name_of t) as [k|]; [|done]. cbn in G. by injection G as <-.
    + intros (t & -> & Ht). rewrite Ht. by eauto.
  - destruct H as (Hs & Hn). split; [done|intros _]. eexists. split; [done|]. by apply read_drop_text.
  - destruct H as (Hs & Hn). split; [done|intros _]. eexists. split; [done|]. by apply read_drop_text.
  - destruct H as (Hs & Ht & Hn). split; [done|intros _]. eexists. split; [done|]. by apply read_drops_constraint.
  - destruct H as (Hs & Hn). split; [done|intros _]. eexists. split; [done|]. by apply read_drop_text.
  - destruct H as (Hs & Ht & Hn & Hn'). split; [done|intros _]. eexists. split; [done|]. by apply read_rename_column_text.
Qed.
