(** The rows of the queries, in terms of the catalogues. *)
From Verif Require Import Base Types Changes SpecSnapshot Diff Sql History Catalog Introspect
  SpecIntrospect SpecCatalog IntrospectLemmas IntrospectProofs.

(** ** Decoding *)
Lemma decode_elem {A} (f : row -> exec A) rows l a :
  decode_rows f rows = Ret l -> a ∈ l <-> exists r, r ∈ rows /\ f r = Ret a.
Proof.
  revert l. induction rows as [|r rows IH]; intros l H; cbn in H.
  - injection H as <-. split; [by intros ?%elem_of_nil|]. by intros (r & ?%elem_of_nil & _).
  - destruct (f r) as [x| | | |] eqn:E; try done. cbn in H.
    destruct (decode_rows f rows) as [l'| | | |]; try done. injection H as <-.
    rewrite elem_of_cons, (IH l') by done. split.
    + intros [->|(r' & Hr & Hf)]; [exists r; split; [left|done]|exists r'; split; [by right|done]].
    + intros (r' & [->|Hr]%elem_of_cons & Hf); [left; congruence|right; eauto].
Qed.

Lemma decode_total {A} (f : row -> exec A) rows l r :
  decode_rows f rows = Ret l -> r ∈ rows -> exists a, f r = Ret a /\ a ∈ l.
Proof.
  intros H Hr. assert (exists a, f r = Ret a) as [a Ha].
  - revert l H. induction Hr as [r rows|r x rows _ IH]; intros l H; cbn in H.
    + destruct (f r); try done. eauto.
    + destruct (f x); try done. cbn in H. destruct (decode_rows f rows); try done. eauto.
  - exists a. split; [done|]. eapply decode_elem; eauto.
Qed.

Lemma decode_ok {A} (f : row -> exec A) rows :
  (forall r, r ∈ rows -> exists a, f r = Ret a) -> exists l, decode_rows f rows = Ret l.
Proof.
  induction rows as [|r rows IH]; intros H; [by exists []|]. cbn.
  destruct (H r) as [a ->]; [left|]. destruct IH as [l ->]; [intros; apply H; by right|]. by eexists.
Qed.

Lemma decode_image {A B} (f : row -> exec A) (g : B -> A) rows l :
  (forall r a, f r = Ret a -> exists x, a = g x) -> decode_rows f rows = Ret l -> exists xs, l = g <$> xs.
Proof.
  intros Hg. revert l. induction rows as [|r rows IH]; intros l H; cbn in H.
  - injection H as <-. by exists [].
  - destruct (f r) as [x| | | |] eqn:E; try done. cbn in H.
    destruct (decode_rows f rows) as [l'| | | |]; try done. injection H as <-.
    destruct (IH l' eq_refl) as [xs ->]. destruct (Hg _ _ E) as [y ->]. by exists (y :: xs).
Qed.

Lemma fetch_inv {A} (f : row -> exec A) q l : fetch f q = Ret l -> exists rows, q = Some rows /\ decode_rows f rows = Ret l.
Proof. destruct q as [rows|]; [|done]. intros H. by exists rows. Qed.

Lemma ebind_inv {A B} (m : exec A) (f : A -> exec B) b : ebind m f = Ret b -> exists a, m = Ret a /\ f a = Ret b.
Proof. destruct m; try done. eauto. Qed.

(** The index that a decoded row stands for. *)
Definition keyed (x : index * option (list str) * option str) : option index :=
  let '(i, ks, e) := x in
  let make keys := Index (ix_schema i) (ix_name i) (ix_table i) (ix_unique i) (ix_method i) keys in
  match e with Some e => Some (make [e]) | None => make <$> ks end.

Lemma load_index_keyed x d :
  load_index x d = match keyed x with Some i => load_relation (RIndex i) d | None => Abort end.
Proof. destruct x as [[i ks] [e|]]; [done|]. by destruct ks. Qed.

Lemma efor_indexes l d d' :
  efor load_index l d = Ret d' -> exists is, Forall2 (fun i x => keyed x = Some i) is l.
Proof.
  revert d. induction l as [|x l IH]; intros d H; [by exists []|]. cbn in H.
  apply ebind_inv in H as (d1 & H1 & H). rewrite load_index_keyed in H1.
  destruct (keyed x) as [i|] eqn:E; [|done]. destruct (IH _ H) as [is His]. exists (i :: is). by constructor.
Qed.

Lemma efor_keyed is l d :
  Forall2 (fun i x => keyed x = Some i) is l ->
  efor load_index l d = efor (fun i => load_relation (RIndex i)) is d.
Proof.
  intros HF. revert d. induction HF as [|i x is l Hi _ IH]; intros d; [done|]. cbn [efor].
  rewrite load_index_keyed, Hi. destruct (load_relation (RIndex i) d); cbn [ebind]; [apply IH|done..].
Qed.

Ltac decodes_to :=
  intros r a H; repeat (apply ebind_inv in H as (? & _ & H)); injection H as <-; eauto.

(** ** Success *)
Record decoded (b : objects) (q : results) : Prop := Decoded {
  dc_fetched : fetched b q;
  dc_indexes : exists l, fetch index_of_row (rs_indexes q) = Ret l /\
    Forall2 (fun i x => keyed x = Some i) (ob_indexes b) l }.

Lemma fetch_all q x1 x2 x3 x4 x5 x6 x7 x8 x9 x10 is :
  fetch schema_of_row (rs_schemas q) = Ret x1 -> fetch sequence_of_row (rs_sequences q) = Ret x2 ->
  fetch table_of_row (rs_tables q) = Ret x3 -> fetch column_of_row (rs_columns q) = Ret x4 ->
  fetch primary_key_of_row (rs_primary_keys q) = Ret x5 -> fetch foreign_key_of_row (rs_foreign_keys q) = Ret x6 ->
  fetch function_of_row (rs_functions q) = Ret x7 -> fetch unique_of_row (rs_uniques q) = Ret x8 ->
  fetch check_of_row (rs_checks q) = Ret x9 -> fetch index_of_row (rs_indexes q) = Ret x10 ->
  Forall2 (fun i x => keyed x = Some i) is x10 -> exists b, decoded b q.
Proof.
  intros F1 F2 F3 F4 F5 F6 F7 F8 F9 F10 His.
  assert (exists l, x1 = schema_new <$> l) as [l1 ->].
  { apply fetch_inv in F1 as (rows & _ & F1). eapply decode_image, F1. decodes_to. }
  assert (exists l, x3 = (fun t => table_new t.1 t.2) <$> l) as [l3 ->].
  { apply fetch_inv in F3 as (rows & _ & F3). eapply (decode_image _ (fun t : str * str => table_new t.1 t.2)), F3.
    intros r a Hr. apply ebind_inv in Hr as (s & _ & Hr). apply ebind_inv in Hr as (k & _ & Hr).
    injection Hr as <-. by exists (s, k). }
  assert (exists l, x5 = CPrimaryKey <$> l) as [l5 ->].
  { apply fetch_inv in F5 as (rows & _ & F5). eapply decode_image, F5. decodes_to. }
  assert (exists l, x6 = CForeignKey <$> l) as [l6 ->].
  { apply fetch_inv in F6 as (rows & _ & F6). eapply decode_image, F6. decodes_to. }
  assert (exists l, x8 = CUnique <$> l) as [l8 ->].
  { apply fetch_inv in F8 as (rows & _ & F8). eapply decode_image, F8. decodes_to. }
  assert (exists l, x9 = CCheck <$> l) as [l9 ->].
  { apply fetch_inv in F9 as (rows & _ & F9). eapply decode_image, F9. decodes_to. }
  exists (Objects l1 x2 l3 x4 l5 l6 x7 l8 l9 is). split; [|by exists x10].
  split; try done. intros d'. unfold load_indexes. rewrite F10. cbn [ebind]. by apply efor_keyed.
Qed.

Lemma introspect_decoded q d :
  introspect_rows q = Ret d -> exists b, decoded b q /\ coherent b /\ holds_exactly b d.
Proof.
  intros H. pose proof H as H0. unfold introspect_rows in H.
  apply ebind_inv in H as (d1 & (x1 & F1 & _)%ebind_inv & H).
  apply ebind_inv in H as (d2 & (x2 & F2 & _)%ebind_inv & H).
  apply ebind_inv in H as (d3 & (x3 & F3 & _)%ebind_inv & H).
  apply ebind_inv in H as (d4 & (x4 & F4 & _)%ebind_inv & H).
  apply ebind_inv in H as (d5 & (x5 & F5 & _)%ebind_inv & H).
  apply ebind_inv in H as (d6 & (x6 & F6 & _)%ebind_inv & H).
  apply ebind_inv in H as (d7 & (x7 & F7 & _)%ebind_inv & H).
  apply ebind_inv in H as (d8 & (x8 & F8 & _)%ebind_inv & H).
  apply ebind_inv in H as (d9 & (x9 & F9 & _)%ebind_inv & H).
  apply ebind_inv in H as (x10 & F10 & H). apply efor_indexes in H as [is His].
  destruct (fetch_all q x1 x2 x3 x4 x5 x6 x7 x8 x9 x10 is) as [b Hb]; [done..|].
  exists b. split; [done|].
  destruct (introspect_built b q (dc_fetched _ _ Hb)) as [(C & HR & Hs)|(C & e & HR)]; [|by rewrite HR in H0].
  split; [done|]. rewrite HR in H0. injection H0 as <-. by apply whole_exact.
Qed.

(** ** Rows *)
Lemma where_elem {A} (b : bool) (l : list A) x : x ∈ (if b then l else []) <-> b = true /\ x ∈ l.
Proof. destruct b; [tauto|]. split; [by intros ?%elem_of_nil|by intros []]. Qed.

Lemma left_join_elem {A} (l : list A) on x :
  x ∈ left_join l on <->
  (exists a, x = Some a /\ a ∈ l /\ on a = true) \/ (x = None /\ forall a, a ∈ l -> on a <> true).
Proof.
  unfold left_join. destruct (filter _ l) as [|y l'] eqn:E.
  - rewrite elem_of_list_singleton. split.
    + intros ->. right. split; [done|]. intros a Ha Hon.
      assert (a ∈ filter (fun a => on a = true) l) as Hin by by apply elem_of_list_filter.
      rewrite E in Hin. by apply elem_of_nil in Hin.
    + intros [(a & -> & Ha & Hon)|[-> _]]; [|done].
      assert (a ∈ filter (fun a => on a = true) l) as Hin by by apply elem_of_list_filter.
      rewrite E in Hin. by apply elem_of_nil in Hin.
  - rewrite <- E. rewrite elem_of_list_fmap. setoid_rewrite elem_of_list_filter. split.
    + intros (a & -> & Hon & Ha). left. eauto.
    + intros [(a & -> & Ha & Hon)|[-> Hno]]; [eauto|]. exfalso.
      assert (y ∈ filter (fun a => on a = true) l) as Hin by (rewrite E; left).
      apply elem_of_list_filter in Hin as [Hon Hy]. by apply (Hno y).
Qed.

Lemma left_join_some {A} (l : list A) on : exists x, x ∈ left_join l on.
Proof.
  unfold left_join. destruct (filter _ l) as [|y l'].
  - exists None. left.
  - exists (Some y). rewrite fmap_cons. left.
Qed.

Ltac bools H := rewrite ?andb_true_iff, ?orb_true_iff, ?bool_decide_eq_true, ?negb_true_iff in H.
Ltac boolgoal := rewrite ?andb_true_iff, ?orb_true_iff, ?bool_decide_eq_true, ?negb_true_iff.
(** Takes a membership in the result of a query apart. *)
Ltac unrow H :=
  match type of H with
  | _ ∈ _ ≫= _ => let x := fresh "x" in let Hx := fresh "Hx" in
                  apply elem_of_list_bind in H as (x & H & Hx); cbv beta in H
  | _ ∈ (if _ then _ else []) => let Hb := fresh "Hb" in apply where_elem in H as [Hb H]; bools Hb
  | _ ∈ [_] => apply elem_of_list_singleton in H
  end.
(** Shows a membership, one loop or condition at a time. *)
Ltac inrow x := apply elem_of_list_bind; exists x; split; [|try done].
Ltac onrow := apply where_elem; split; [boolgoal; try (solve [tauto | done | repeat split; done])|].
Ltac inlast := apply elem_of_list_singleton; reflexivity.

Lemma array_agg_some {A} (l : list A) x : array_agg l = Some x <-> l <> [] /\ x = l.
Proof. destruct l; naive_solver. Qed.

Lemma head_elem (l : list str) s : scalar l = Some s -> s ∈ l.
Proof. destruct l as [|a l]; [done|]. intros [= ->]. left. Qed.
Lemma head_none (l : list str) : scalar l = None -> l = [].
Proof. by destruct l. Qed.
