(** Lemmas behind PropsSql.v. *)
From Verif Require Import Base Text Types Changes Sql SpecSql TextLemmas SqlLemmas SqlDecode.

(** ** Identifiers *)
Definition twice (c : N) : str := if decide (c = 34%N) then [34; 34]%N else [c].
Definition double (s : str) : str := s ≫= twice.

Lemma quoted_body_inv s a b : quoted_body s = Some (a, b) -> s = double a ++ 34%N :: b.
Proof.
  revert a b. induction s as [s IH] using (induction_ltof1 _ (@length N)). unfold ltof in IH.
  intros a b. destruct s as [|c s]; [done|]. cbn [quoted_body]. destruct (decide (c = 34%N)) as [->|Hc].
  - destruct s as [|c' s]; [by intros [= <- <-]|]. destruct (decide (c' = 34%N)) as [->|Hc'].
    + intros ([a' b'] & H & [= -> ->])%fmap_Some. apply IH in H; [|simpl; lia]. by rewrite H.
    + by intros [= <- <-].
  - intros ([a' b'] & H & [= -> ->])%fmap_Some. apply IH in H; [|simpl; lia]. rewrite H.
    unfold double. csimpl. unfold twice at 2. by rewrite decide_False.
Qed.

Lemma quoted_body_app n r : 34%N ∉ n -> head r <> Some 34%N -> quoted_body (n ++ 34%N :: r) = Some (n, r).
Proof.
  intros Hn Hr. induction n as [|c n IH].
  - cbn [app quoted_body]. rewrite decide_True by done. destruct r as [|c r]; [done|].
    rewrite decide_False by (intros ->; done). done.
  - apply not_elem_of_cons in Hn as [Hc Hn]. cbn [app quoted_body]. rewrite decide_False by done.
    by rewrite IH.
Qed.

Lemma double_excess k q x y :
  head x <> Some 34%N -> q ++ 34%N :: x = replicate (S k) 34%N ++ double q ++ 34%N :: y -> False.
Proof.
  intros Hx. revert k. induction q as [|c q IH]; intros k H.
  - simpl in H. injection H as ->. apply Hx. by destruct k.
  - simpl in H. injection H as -> H. apply (IH (S k)). rewrite H. clear.
    unfold double. csimpl. change (twice 34) with [34; 34]%N.
    induction k as [|k IHk]; [done|]. simpl in *. by f_equal.
Qed.
Lemma double_fixed n x y :
  head x <> Some 34%N -> n ++ 34%N :: x = double n ++ 34%N :: y -> 34%N ∉ n.
Proof.
  intros Hx. induction n as [|c n IH]; intros H; [apply not_elem_of_nil|].
  unfold double in H. csimpl in H. unfold twice at 1 in H. destruct (decide (c = 34%N)) as [->|Hc].
  - exfalso. simpl in H. injection H as H. by apply (double_excess 0) in H.
  - simpl in H. injection H as H. apply not_elem_of_cons. split; [congruence|]. by apply IH.
Qed.

Lemma read_quoted_app n r : quotable n -> head r <> Some 34%N -> read_quoted (sql_qn n ++ r) = Some (n, r).
Proof.
  intros [Hn1 Hn] Hr. unfold sql_qn. change (L """") with [34%N]. rewrite <- !(assoc_L (++)).
  cbn [app read_quoted]. rewrite decide_True by done. rewrite quoted_body_app by done. by destruct n.
Qed.
Lemma read_quoted_inv n r r' : head r <> Some 34%N -> read_quoted (sql_qn n ++ r) = Some (n, r') -> quotable n.
Proof.
  intros Hr. unfold sql_qn. change (L """") with [34%N]. rewrite <- !(assoc_L (++)).
  cbn [app read_quoted]. rewrite decide_True by done.
  destruct (quoted_body _) as [[[|c a] b]|] eqn:E; try done. intros [= <- <-].
  split; [done|]. apply quoted_body_inv in E. by eapply double_fixed.
Qed.
Lemma quoted_iff n r : head r <> Some 34%N -> read_quoted (sql_qn n ++ r) = Some (n, r) <-> quotable n.
Proof. intros Hr. split; [by apply read_quoted_inv|]. intros H. by apply read_quoted_app. Qed.

Lemma qualified_iff s t r :
  head r <> Some 34%N -> fst <$> read_qualified (sql_qa s t ++ r) = Some (s, t) <-> quotable s /\ quotable t.
Proof.
  intros Hr. unfold sql_qa. rewrite <- !(assoc_L (++)). unfold read_qualified. split.
  - destruct (read_quoted _) as [[a [|c b]]|] eqn:E; try done. intros H.
    destruct (decide (c = 46%N)) as [->|]; [|done].
    destruct (read_quoted b) as [[a' b']|] eqn:E'; [|done]. injection H as -> ->.
    assert (quotable s) as Hs by (by apply read_quoted_inv in E). split; [done|].
    rewrite read_quoted_app in E by done. injection E as <-. by apply read_quoted_inv in E'.
  - intros [Hs Ht]. rewrite read_quoted_app by done. change (L "." ++ sql_qn t ++ r) with (46%N :: sql_qn t ++ r).
    cbv iota beta. rewrite decide_True by done. rewrite read_quoted_app by done. done.
Qed.

Lemma from_quote_app p r : 34%N ∉ p -> from_quote (p ++ r) = from_quote r.
Proof.
  induction p as [|c p IH]; [done|]. intros [H1 H2]%not_elem_of_cons. simpl.
  rewrite decide_False by done. auto.
Qed.
Lemma from_quote_qn n r : from_quote (sql_qn n ++ r) = sql_qn n ++ r.
Proof. done. Qed.
Lemma from_quote_qa s t r : from_quote (sql_qa s t ++ r) = sql_qa s t ++ r.
Proof. done. Qed.

Lemma object_split c s t :
  change_object c = Some (s, t) ->
  exists p r, render_sql c = p ++ sql_qa s t ++ r /\ 34%N ∉ p /\ head r <> Some 34%N.
Proof.
  assert (forall s t x n r, exists p r', alter_table s t x n ++ r = p ++ sql_qa s t ++ r' /\
    34%N ∉ p /\ head r' <> Some 34%N) as Halter.
  { intros. unfold alter_table. rewrite <- !(assoc_L (++)). eexists _, _.
    split; [reflexivity|]. split; [by_not|done]. }
  destruct c; cbn [change_object render_sql]; intros [= -> ->]; try apply Halter.
  - unfold add_column_tokens. rewrite join_cons. rewrite <- !(assoc_L (++)). apply Halter.
  - destruct default; apply Halter.
  - destruct not_null; apply Halter.
  - eexists _, _. split; [reflexivity|]. split; [by_not|done].
  - eexists _, _. split; [reflexivity|]. split; [by_not|done].
  - eexists _, _. split; [reflexivity|]. split; [by_not|done].
  - eexists _, _. split; [reflexivity|]. split; [by_not|done].
  - rewrite <- (app_nil_r (alter_table _ _ _ _)). apply Halter.
  - eexists _, _. split; [reflexivity|]. split; [by_not|done].
  - eexists _, _. split; [reflexivity|]. split; [by_not|done].
  - eexists _, _. split; [reflexivity|]. split; [by_not|done].
  - eexists _, _. split; [reflexivity|]. split; [by_not|done].
  - exists (L "DROP VIEW "), []. rewrite app_nil_r. split; [reflexivity|]. split; [by_not|done].
Qed.

Lemma statement_object_iff c s t :
  change_object c = Some (s, t) ->
  read_object (render_sql c) = Some (s, t) <-> quotable s /\ quotable t.
Proof.
  intros (p & r & -> & Hp & Hr)%object_split. unfold read_object.
  rewrite from_quote_app by done. rewrite from_quote_qa. by apply qualified_iff.
Qed.

Lemma created_index_iff s t n u m ks :
  read_created_index (render_sql (CreateIndex s t n u m ks)) = Some (n, (s, t)) <->
  quotable n /\ quotable s /\ quotable t.
Proof.
  cbn [render_sql]. unfold read_created_index.
  set (r := L " USING " ++ m ++ L " (" ++ sql_l ks ++ L ")" ++ L ";").
  assert (head r <> Some 34%N) as Hr by done.
  assert (from_quote (L "CREATE " ++ (if u then L "UNIQUE INDEX" else L "INDEX") ++ L " " ++
    sql_qn n ++ L " ON " ++ sql_qa s t ++ r) = sql_qn n ++ L " ON " ++ sql_qa s t ++ r) as ->.
  { rewrite from_quote_app by by_not. rewrite from_quote_app by (destruct u; by_not).
    rewrite from_quote_app by by_not. done. }
  assert (from_quote (L " ON " ++ sql_qa s t ++ r) = sql_qa s t ++ r) as Hf by done.
  split.
  - destruct (read_quoted _) as [[a b]|] eqn:E; [|done]. intros H.
    destruct (read_qualified (from_quote b)) as [[[x y] z]|] eqn:E'; [|done]. injection H as -> -> ->.
    assert (quotable n) as Hn by (by apply read_quoted_inv in E). split; [done|].
    rewrite read_quoted_app in E by done.
    assert (b = L " ON " ++ sql_qa s t ++ r) as -> by congruence. rewrite Hf in E'.
    apply (qualified_iff s t r Hr). by rewrite E'.
  - intros (Hn & Hst). rewrite read_quoted_app by done. rewrite Hf.
    apply (qualified_iff s t r Hr) in Hst.
    destruct (read_qualified _) as [[[x y] z]|]; [|done]. by injection Hst as -> ->.
Qed.

(** Names without quotes. *)
Lemma span_ident_inv s a b : span_ident s = (a, b) -> s = a ++ b /\ Forall (fun c => ident_cont c = true) a.
Proof.
  revert a b. induction s as [|c s IH]; simpl; intros a b; [by intros [= <- <-]|].
  destruct (ident_cont c) eqn:E; [|by intros [= <- <-]].
  destruct (span_ident s) as [a' b']. intros [= <- <-]. destruct (IH _ _ eq_refl) as [-> ?]. split; [done|].
  by constructor.
Qed.
Lemma span_ident_app n r : Forall (fun c => ident_cont c = true) n ->
  (forall c, head r = Some c -> ident_cont c = false) -> span_ident (n ++ r) = (n, r).
Proof.
  intros Hn Hr. induction Hn as [|c n Hc Hn IH]; simpl.
  - destruct r as [|c r]; [done|]. simpl. by rewrite Hr.
  - by rewrite Hc, IH.
Qed.
Lemma fold_case_id n : fold_case <$> n = n <-> Forall (fun c => ~ is_upper c) n.
Proof.
  induction n as [|c n IH]; [done|]. rewrite Forall_cons, <- IH. csimpl. unfold is_upper, fold_case at 1. split.
  - intros [= H1 H2]. split; [|done]. destruct ((65 <=? c) && (c <=? 90))%N eqn:E; [lia|].
    apply andb_false_iff in E as [E|E]; [apply N.leb_gt in E|apply N.leb_gt in E]; lia.
  - intros [H1 ->]. destruct ((65 <=? c) && (c <=? 90))%N eqn:E; [|done].
    apply andb_true_iff in E as [E1 E2]. apply N.leb_le in E1, E2. lia.
Qed.
Lemma unquoted_iff n : read_unquoted (n ++ L ";") = Some (n, L ";") <-> wordlike n.
Proof.
  split.
  - intros H. destruct n as [|c n]; [done|]. revert H.
    cbn [app read_unquoted]. destruct (ident_start c) eqn:Ec; [|done].
    destruct (span_ident (c :: n ++ L ";")) as [w r] eqn:E. apply span_ident_inv in E as [E Hw].
    cbn zeta. destruct (decide _) as [|Hres]; [done|]. intros [= H1 ->].
    rewrite app_comm_cons in E. apply (inj (.++ L ";")) in E. subst w.
    split; [exists c, n; by split|]. split; [done|]. split; [by apply fold_case_id|]. by rewrite <- H1.
  - intros ((c & r & -> & Hc) & H1 & H2 & H3). unfold read_unquoted. cbn [app]. rewrite Hc.
    rewrite app_comm_cons. rewrite span_ident_app; [|done|by intros ? [= <-]]. cbn zeta.
    apply fold_case_id in H2. rewrite H2. by rewrite decide_False.
Qed.

(** Different names give different text. *)
Lemma qn_inj n n' : sql_qn n = sql_qn n' -> n = n'.
Proof. unfold sql_qn. intros [= H]. by apply (inj (.++ _)) in H. Qed.
Lemma qa_inj s t s' t' :
  34%N ∉ s -> 34%N ∉ s' -> 34%N ∉ t -> 34%N ∉ t' -> sql_qa s t = sql_qa s' t' -> s = s' /\ t = t'.
Proof.
  intros H1 H2 H3 H4 H. rewrite <- (app_nil_r (sql_qa s t)), <- (app_nil_r (sql_qa s' t')) in H.
  assert (get_qa (sql_qa s t ++ []) = get_qa (sql_qa s' t' ++ [])) as K by (by rewrite H).
  rewrite !get_qa_app in K by done. by injection K.
Qed.

(** ** Columns *)
Lemma null_option_text b o : null_option b o ->
  (b = true /\ o = L " NOT NULL") \/ (b = false /\ o = L " NULL") \/ (b = false /\ o = []).
Proof. destruct 1; auto. Qed.

Lemma add_column_never s t n ty nn d : ~ adds_column s t n ty nn d (render_sql (AddColumn s t n ty nn d)).
Proof.
  intros (text & (o & Ho & Ht) & H). cbn [render_sql] in H.
  assert (join_with (L " ") ((alter_table s t (L "ADD COLUMN") n ++ L " " ++ ty) :: add_column_tokens nn d) ++ L ";" =
    L "ALTER TABLE " ++ qualified s t ++ L " ADD COLUMN " ++ (L """" ++ n ++ L """ " ++ ty ++
      (if nn then [] else L " NOT NULL") ++ default_option d) ++ L ";") as E.
  { rewrite join_cons. unfold alter_table, sql_qa, sql_qn, qualified, add_column_tokens, default_option.
    rewrite <- !(assoc_L (++)). destruct nn, d as [d|]; csimpl; rewrite ?app_nil_r; simpl;
      rewrite <- ?(assoc_L (++)); reflexivity. }
  rewrite E in H. clear E.
  do 3 apply app_inv_head in H. apply app_inv_tail in H.
  apply null_option_text in Ho.
  destruct Ht as [-> | ->]; do 4 apply app_inv_head in H;
    destruct Ho as [[-> ->]|[[-> ->]|[-> ->]]]; destruct d as [d|]; simpl in H; try done.
  apply (f_equal length) in H. cbn [length] in H. rewrite app_length in H. change (length (L " NOT NULL")) with 9 in H. lia.
Qed.

Lemma create_table_text s t cs :
  render_sql (CreateTable s t cs) = L "CREATE TABLE " ++ qualified s t ++ L " (" ++ columns_text cs ++ L ");".
Proof. cbn [render_sql]. unfold qualified, sql_qa, sql_qn. by rewrite <- !(assoc_L (++)). Qed.

(** The text after the name of a column, as SQL wants it. *)
Definition wanted_tail (c : create_table_column) (w : str) : Prop :=
  exists o, null_option (cc_notnull c) o /\
    (w = cc_type c ++ o ++ default_option (cc_default c) \/ w = cc_type c ++ default_option (cc_default c) ++ o).
Lemma column_text_tail c text :
  column_text (cc_name c) (cc_type c) (cc_notnull c) (cc_default c) text <->
  exists w, text = sql_qn (cc_name c) ++ L " " ++ w /\ wanted_tail c w.
Proof.
  unfold column_text, wanted_tail, sql_qn. change (L """ ") with (L """" ++ L " "). split.
  - intros (o & Ho & [-> | ->]); eexists; (split; [rewrite <- !(assoc_L (++)); reflexivity|]); eauto.
  - intros (w & -> & o & Ho & [-> | ->]); exists o; (split; [done|]); rewrite <- !(assoc_L (++)); auto.
Qed.
Lemma column_tail_text c : column_tail c =
  cc_type c ++ (if cc_notnull c then [] else L " NULL") ++ default_option (cc_default c).
Proof.
  unfold column_tail. destruct (cc_notnull c), (cc_default c) as [d|]; cbn [negb app join_with default_option].
  - reflexivity.
  - by rewrite app_nil_r.
  - reflexivity.
  - by rewrite app_nil_r.
Qed.
Lemma wanted_column_tail c : wanted_tail c (column_tail c) <-> cc_notnull c = false.
Proof.
  rewrite column_tail_text. unfold wanted_tail. split.
  - intros (o & Ho & H). destruct (cc_notnull c); [|done]. exfalso.
    apply null_option_text in Ho as [[_ ->]|[[? _]|[? _]]]; [|done|done].
    destruct H as [H|H]; apply app_inv_head in H; destruct (cc_default c) as [d|]; simpl in H; try done.
    apply (f_equal length) in H. cbn [length] in H. rewrite app_length in H.
    change (length (L " NOT NULL")) with 9 in H. lia.
  - intros Hn. rewrite Hn. exists (L " NULL"). split; [constructor|by left].
Qed.
Lemma wanted_tail_unquoted c w : unquoted_column c -> wanted_tail c w -> 34%N ∉ w.
Proof.
  intros (_ & H1 & H2) (o & Ho & H). assert (34%N ∉ o) as H3.
  { apply null_option_text in Ho as [[_ ->]|[[_ ->]|[_ ->]]]; by_not. }
  assert (34%N ∉ default_option (cc_default c)) as H4.
  { unfold default_option. destruct (cc_default c) as [d|]; [|by_not].
    apply not_elem_app; [by_not|by apply H2]. }
  destruct H as [-> | ->]; repeat apply not_elem_app; done.
Qed.

Lemma cut_eq (c : N) (a b a' b' : str) : c ∉ a -> c ∉ a' -> a ++ c :: b = a' ++ c :: b' -> a = a' /\ b = b'.
Proof.
  intros Ha Ha' H. assert (cut c (a ++ c :: b) = cut c (a' ++ c :: b')) as K by (by rewrite H).
  rewrite !cut_app in K by done. by injection K.
Qed.

Lemma column_texts_head c cs text : column_texts (c :: cs) text -> exists r, text = 34%N :: r.
Proof. inversion 1 as [|? ? (o & _ & [-> | ->])|? ? ? ? (o & _ & [-> | ->])]; subst; by eexists. Qed.

Lemma column_texts_cons c b cs x :
  column_texts (c :: b :: cs) x ->
  exists text rest, x = text ++ L ", " ++ rest /\
    column_text (cc_name c) (cc_type c) (cc_notnull c) (cc_default c) text /\ column_texts (b :: cs) rest.
Proof. inversion 1; subst; eauto. Qed.

Lemma column_texts_iff cs :
  Forall unquoted_column cs ->
  column_texts cs (columns_text cs) <-> Forall (fun c => cc_notnull c = false) cs.
Proof.
  induction 1 as [|c cs Hc Hcs IH].
  { split; [constructor|]. intros _. change (columns_text []) with (@nil N). constructor. }
  rewrite Forall_cons. destruct cs as [|b cs].
  - change (columns_text [c]) with (create_table_column_sql c). rewrite create_table_column_tail. split.
    + intros H. split; [|constructor]. inversion H as [|? ? Ht|]; subst; [|done].
      apply column_text_tail in Ht as (w & Hw & Hwant). do 2 apply app_inv_head in Hw. subst w.
      by apply wanted_column_tail.
    + intros [H _]. constructor. apply column_text_tail. eexists. split; [reflexivity|].
      by apply wanted_column_tail.
  - rewrite columns_text_cons, create_table_column_tail. split.
    + intros H. apply column_texts_cons in H as (text & rest & H1 & Ht & Hr).
      apply column_text_tail in Ht as (w & -> & Hwant).
      rewrite <- !(assoc_L (++)) in H1. do 2 apply app_inv_head in H1.
      destruct (column_texts_head _ _ _ Hr) as [r' ->]. destruct (columns_text_head b cs) as [r Hr2].
      rewrite Hr2 in H1. rewrite !(assoc_L (++)) in H1.
      apply cut_eq in H1 as [H1 H2].
      * apply app_inv_tail in H1. subst w. subst r'. rewrite Hr2 in IH.
        split; [by apply wanted_column_tail|]. by apply IH.
      * apply not_elem_app; [by apply column_tail_unquoted|by_not].
      * apply not_elem_app; [by eapply wanted_tail_unquoted|by_not].
    + intros [H1 H2]. rewrite !(assoc_L (++)), <- (assoc_L (++) _ (L ", ")). constructor; [|done|by apply IH].
      apply column_text_tail. eexists. split; [by rewrite <- (assoc_L (++))|]. by apply wanted_column_tail.
Qed.

Lemma create_table_iff s t cs :
  Forall unquoted_column cs ->
  creates_table s t cs (render_sql (CreateTable s t cs)) <-> Forall (fun c => cc_notnull c = false) cs.
Proof.
  intros H. rewrite <- (column_texts_iff cs H), create_table_text. unfold creates_table. split.
  - intros (text & Ht & E). do 3 apply app_inv_head in E. apply app_inv_tail in E. by subst.
  - intros Ht. by eexists.
Qed.

Lemma set_not_null s t n nn : sets_nullability s t n nn (render_sql (AlterColumnSetNotNull s t n nn)).
Proof.
  unfold sets_nullability. cbn [render_sql]. unfold alter_table, sql_qa, sql_qn, qualified.
  destruct nn; rewrite <- !(assoc_L (++)); reflexivity.
Qed.

(** ** Deferral *)
Lemma starts_with_app p s : starts_with p (p ++ s) = true.
Proof. induction p; simpl; [done|]. by rewrite N.eqb_refl. Qed.
Lemma ends_with_app p s : ends_with p (s ++ p) = Some s.
Proof.
  unfold ends_with. rewrite reverse_app, starts_with_app, app_length.
  replace (length s + length p - length p) with (length s) by lia. by rewrite take_app.
Qed.
Lemma ends_with_not p s l :
  starts_with (reverse p) (reverse l ++ reverse s) = false -> ends_with p (s ++ l) = None.
Proof. unfold ends_with. rewrite reverse_app. by intros ->. Qed.

Lemma read_semi s : read_deferral (s ++ L ";") =
  match ends_with (L " INITIALLY DEFERRED") s with
  | Some s => (read_deferrable s, true)
  | None => match ends_with (L " INITIALLY IMMEDIATE") s with
            | Some s => (read_deferrable s, false)
            | None => (read_deferrable s, false)
            end
  end.
Proof. unfold read_deferral. by rewrite ends_with_app. Qed.

Lemma read_initially s i :
  read_deferral (s ++ L " " ++ sql_initially i ++ L ";") = (read_deferrable s, i).
Proof.
  rewrite !(assoc_L (++)), read_semi, <- (assoc_L (++)). destruct i.
  - change (L " " ++ sql_initially true) with (L " INITIALLY DEFERRED"). by rewrite ends_with_app.
  - change (L " " ++ sql_initially false) with (L " INITIALLY IMMEDIATE").
    rewrite ends_with_not by reflexivity. by rewrite ends_with_app.
Qed.
Lemma read_deferrable_text s d :
  ends_with (L " NOT") s = None -> read_deferrable (s ++ L " " ++ sql_deferrable d) = d.
Proof.
  intros Hs. unfold read_deferrable. destruct d.
  - change (L " " ++ sql_deferrable true) with (L " DEFERRABLE"). rewrite ends_with_app.
    rewrite ends_with_not; [done|]. revert Hs. unfold ends_with.
    change (reverse (L " NOT DEFERRABLE")) with (reverse (L " DEFERRABLE") ++ reverse (L " NOT")).
    generalize (reverse (L " DEFERRABLE")). generalize (reverse (L " NOT")). intros p q.
    destruct (starts_with p (reverse s)) eqn:E; [done|]. intros _.
    induction q; simpl; [done|]. by rewrite N.eqb_refl.
  - change (L " " ++ sql_deferrable false) with (L " NOT DEFERRABLE"). by rewrite ends_with_app.
Qed.

Lemma attrs_read s d i :
  ends_with (L " NOT") s = None -> read_deferral (s ++ attrs_text d i) = (d, i).
Proof.
  intros Hs. unfold attrs_text. rewrite !(assoc_L (++)). rewrite <- (assoc_L (++) _ _ (L ";")).
  rewrite <- (assoc_L (++) _ (L " ") (_ ++ _)). rewrite read_initially. f_equal.
  rewrite <- (assoc_L (++)). by apply read_deferrable_text.
Qed.

Lemma ends_with_inv p s r : ends_with p s = Some r -> exists s', s = s' ++ p.
Proof.
  unfold ends_with. destruct (starts_with _ _) eqn:E; [|done]. intros _.
  assert (forall a b, starts_with a b = true -> exists c, b = a ++ c) as Hsw.
  { clear. induction a as [|x a IH]; intros b; [by exists b|]. destruct b as [|y b]; [done|]. simpl.
    intros [->%N.eqb_eq (c & ->)%IH]%andb_true_iff. by exists c. }
  apply Hsw in E as [c E]. exists (reverse c). rewrite <- (reverse_involutive s), E.
  by rewrite reverse_app, reverse_involutive.
Qed.
Lemma check_not_not s e : last (words e) <> Some (L "NOT") -> ends_with (L " NOT") (s ++ L " CHECK " ++ e) = None.
Proof.
  intros He. destruct (ends_with _ _) as [r|] eqn:E; [|done]. exfalso.
  apply ends_with_inv in E as [s' E]. apply (f_equal words) in E.
  change (L " CHECK ") with (L " CHECK" ++ L " ") in E. rewrite <- (assoc_L (++)), (assoc_L (++) s) in E.
  rewrite words_app in E. change (L " NOT") with (L " " ++ L "NOT") in E. rewrite words_app in E.
  apply (f_equal last) in E. change (words (L "NOT")) with [L "NOT"] in E. rewrite last_snoc in E.
  destruct (words e) as [|w ws _] eqn:Ew using rev_ind; [by destruct (split_on_nonempty 32 e)|].
  rewrite (assoc_L (++)), last_snoc in E. rewrite last_snoc in He. congruence.
Qed.
Lemma name_not_not s n : ends_with (L " NOT") (s ++ sql_qn n) = None.
Proof. unfold sql_qn. rewrite !(assoc_L (++)). by apply ends_with_not. Qed.
Lemma alter_not_not s t x n : ends_with (L " NOT") (alter_table s t x n) = None.
Proof. unfold alter_table. rewrite !(assoc_L (++)). apply name_not_not. Qed.

Lemma altered_read s t x n d : read_deferral (alter_table s t x n ++ altered_text d) = (d, d).
Proof.
  unfold read_deferral. destruct d.
  - rewrite ends_with_not by reflexivity.
    change (altered_text true) with ((L " " ++ sql_deferrable true) ++ L " INITIALLY DEFERRED").
    rewrite (assoc_L (++)), ends_with_app. f_equal. apply read_deferrable_text, alter_not_not.
  - rewrite ends_with_not by reflexivity.
    change (altered_text false) with ((L " " ++ sql_deferrable false) ++ L " INITIALLY IMMEDIATE").
    rewrite (assoc_L (++)). rewrite ends_with_not by reflexivity. rewrite ends_with_app. f_equal.
    apply read_deferrable_text, alter_not_not.
Qed.

Lemma rule_read s d : d ∈ rules -> read_deferral (s ++ L " " ++ d ++ L ";") = (false, false).
Proof.
  intros H. rewrite !(assoc_L (++)), read_semi, <- (assoc_L (++)).
  assert (forall l, l ∈ (fun d => L " " ++ d) <$> rules ->
    ends_with (L " INITIALLY DEFERRED") (s ++ l) = None /\ ends_with (L " INITIALLY IMMEDIATE") (s ++ l) = None /\
    ends_with (L " DEFERRABLE") (s ++ l) = None) as Hl.
  { intros l Hin. simpl in Hin. repeat (apply elem_of_cons in Hin as [->|Hin]);
      [..|by apply elem_of_nil in Hin]; split_and!; by apply ends_with_not. }
  destruct (Hl (L " " ++ d)) as (-> & -> & E).
  { apply elem_of_list_fmap. by exists d. }
  unfold read_deferrable. rewrite E. by destruct (ends_with (L " NOT DEFERRABLE") _).
Qed.

Lemma deferral_iff c a :
  change_deferral c = Some a -> constraint_text_plain c ->
  read_deferral (render_sql c) = a <-> deferral_stated c.
Proof.
  assert (forall d i : bool, (d, i) = (d, i) <-> True) as Htt by done.
  destruct c; try done; cbn [change_deferral render_sql constraint_text_plain deferral_stated]; intros [= <-] Hp.
  - fold (attrs_text deferrable initially_deferred). rewrite !(assoc_L (++)), <- (assoc_L (++) _ _ expression).
    rewrite attrs_read; [apply Htt|]. by apply check_not_not.
  - rewrite !(assoc_L (++)). rewrite <- (assoc_L (++) _ _ (L ";")), <- (assoc_L (++) _ (L " ")).
    rewrite rule_read by done. split; [by intros [= <- <-]|by intros [-> ->]].
  - change (L ") ") with (L ")" ++ L " "). rewrite <- !(assoc_L (++)).
    fold (attrs_text deferrable initially_deferred). rewrite !(assoc_L (++)).
    rewrite attrs_read; [apply Htt|]. by apply ends_with_not.
  - change (L ") ") with (L ")" ++ L " "). rewrite <- !(assoc_L (++)).
    fold (attrs_text deferrable initially_deferred). rewrite !(assoc_L (++)).
    rewrite attrs_read; [apply Htt|]. by apply ends_with_not.
  - fold (altered_text deferrable). rewrite altered_read. by destruct deferrable, initially_deferred.
  - fold (altered_text deferrable). rewrite altered_read. by destruct deferrable, initially_deferred.
  - fold (attrs_text deferrable initially_deferred). rewrite attrs_read; [apply Htt|]. apply alter_not_not.
  - fold (attrs_text deferrable initially_deferred). rewrite attrs_read; [apply Htt|]. apply alter_not_not.
Qed.
