(** The programs of Concurrent.v are the commands of Dbh.v. *)
From Verif Require Import Base Text Types Changes Sql History Dbh Concurrent.

Section refine.
  Context {S : Type} (sem : str -> S -> option S) (ident : str -> option str) (schema : str).

  (** A reply without a value, or a failure. *)
  Definition replied (m : io (session S) ()) : io (session S) reply :=
    fun s => let '(r, s') := m s in
             (match r with Ret _ => Ret Accepted | Raise DbError => Ret Failed
              | Raise e => Raise e | Abort => Abort | Hang => Hang | Killed => Killed end, s').
  Definition asked (q : query) : io (session S) reply :=
    match q with
    | AskSchema => do b <- meta_schema_exists schema; iret (Exists_ b)
    | MakeSchema => replied (create_schema ident schema)
    | MakeTable => replied (create_table ident schema)
    | InsertRow v => replied (record_version ident schema v)
    | DeleteRow n => replied (on_table ident schema (delete_row n))
    | Select => fun s =>
        let '(r, s') := ask_table ident schema (fun rows => Ret rows) s in
        (match r with Ret l => Ret (Rows l) | Raise DbError => Ret Failed
         | Raise e => Raise e | Abort => Abort | Hang => Hang | Killed => Killed end, s')
    | Execute stmt => replied (execute sem stmt)
    | Commit => replied (commit sem)
    end.
  (** A program, run on its own. *)
  Fixpoint interp {A} (p : program A) : io (session S) A :=
    match p with
    | Stop r => iread (fun _ => r)
    | Ask q k => do r <- asked q; interp (k r)
    end.

  Local Notation "m ≈ m'" := (forall s, m s = m' s) (at level 70).

  Lemma ibind_cong {A B} (m m' : io (session S) A) (f f' : A -> io (session S) B) :
    m ≈ m' -> (forall a, f a ≈ f' a) -> ibind m f ≈ ibind m' f'.
  Proof. intros H K s. unfold ibind. rewrite H. destruct (m' s) as [[] ?]; auto. Qed.
  Lemma ibind_assoc {A B C} (m : io (session S) A) (f : A -> io (session S) B) (g : B -> io (session S) C) :
    ibind (ibind m f) g ≈ ibind m (fun a => ibind (f a) g).
  Proof. intros s. unfold ibind. by destruct (m s) as [[] ?]. Qed.
  Lemma interp_bind {A B} (m : program A) (f : A -> program B) :
    interp (pbind m f) ≈ ibind (interp m) (fun a => interp (f a)).
  Proof.
    induction m as [r|q k IH].
    - intros s. by destruct r.
    - intros s. cbn [pbind interp]. rewrite ibind_assoc. apply ibind_cong; [done|]. intros r s'. apply IH.
  Qed.
  Lemma interp_unwrap_tell q : (forall s e, (asked q s).1 <> Raise e) ->
    interp (punwrap (tell q)) ≈ iunwrap (interp (tell q)).
  Proof.
    intros Hq s. cbn. unfold ibind, iunwrap. specialize (Hq s). destruct (asked q s) as [[r|e| | |] s']; cbn in *; try done.
    - by destruct r.
    - by destruct (Hq e).
  Qed.

  Lemma replied_tell (m : io (session S) ()) : (forall s e, (m s).1 = Raise e -> e = DbError) ->
    ibind (replied m) (fun r => interp (match r with Accepted => Stop (Ret ()) | _ => Stop (Raise DbError) end)) ≈ m.
  Proof.
    intros H [k s]. unfold ibind, replied. specialize (H (k, s)). destruct (m (k, s)) as [r s']. cbn in H.
    destruct r as [[]|e| | |]; try done. by rewrite (H e).
  Qed.
  Lemma replied_total (m : io (session S) ()) s e : (forall s e, (m s).1 = Raise e -> e = DbError) -> (replied m s).1 <> Raise e.
  Proof. intros H. unfold replied. specialize (H s). destruct (m s) as [r s']. cbn in *. destruct r as [[]|e'| | |]; try done. by rewrite (H e'). Qed.

  Lemma on_table_raises {A} (f : vtable -> exec A * vtable) :
    (forall t e, (f t).1 = Raise e -> e = DbError) -> forall (s : nat * session S) e, (on_table ident schema f s).1 = Raise e -> e = DbError.
  Proof.
    intros H [[|k] s] e; [done|]. unfold on_table, istep.
    destruct (ident schema) as [n|]; [|by intros [= <-]].
    destruct (pg_schemas (working s) !! n) as [[t|]|]; [|by intros [= <-]..].
    specialize (H t). destruct (f t) as [r t']. apply H.
  Qed.
  Lemma insert_row_raises v t e : (insert_row v t).1 = Raise e -> e = DbError.
  Proof. unfold insert_row. repeat (case_match; try by intros [= <-]). Qed.
  Lemma delete_row_raises n t e : (delete_row n t).1 = Raise e -> e = DbError.
  Proof. unfold delete_row. case_match; [by intros [= <-]|done]. Qed.
  Lemma create_schema_raises (s : nat * session S) e : (create_schema ident schema s).1 = Raise e -> e = DbError.
  Proof. destruct s as [[|k] s]; [done|]. unfold create_schema, istep. repeat (case_match; try by intros [= <-]); naive_solver. Qed.
  Lemma create_table_raises (s : nat * session S) e : (create_table ident schema s).1 = Raise e -> e = DbError.
  Proof. destruct s as [[|k] s]; [done|]. unfold create_table, istep. repeat (case_match; try by intros [= <-]); naive_solver. Qed.
  Lemma execute_raises stmt s e : (execute sem stmt s).1 = Raise e -> e = DbError.
  Proof. destruct s as [[|k] s]; [done|]. unfold execute, istep. repeat (case_match; try by intros [= <-]); naive_solver. Qed.

  Lemma interp_exists : interp p_meta_schema_exists ≈ meta_schema_exists schema.
  Proof. intros [[|k] s]; [done|]. cbn. unfold ibind, iret. by cbn. Qed.
  Lemma interp_insert v : interp (tell (InsertRow v)) ≈ record_version ident schema v.
  Proof. apply replied_tell, on_table_raises, insert_row_raises. Qed.
  Lemma interp_delete n : interp (tell (DeleteRow n)) ≈ on_table ident schema (delete_row n).
  Proof. apply replied_tell, on_table_raises, delete_row_raises. Qed.
  Lemma interp_execute stmt : interp (tell (Execute stmt)) ≈ execute sem stmt.
  Proof. apply replied_tell, execute_raises. Qed.
  Lemma interp_commit : interp (tell Commit) ≈ commit sem.
  Proof. apply replied_tell. intros [[|k] s] e; unfold commit, istep; simpl; [done|]. destruct (sem _ _); naive_solver. Qed.

  Lemma iunwrap_cong {A} (m m' : io (session S) A) : m ≈ m' -> iunwrap m ≈ iunwrap m'.
  Proof. intros H s. unfold iunwrap. by rewrite H. Qed.

  Lemma interp_select {A} (f : list row -> exec A) : interp (select f) ≈ ask_table ident schema f.
  Proof.
    intros [[|k] s]; [done|]. cbn. unfold ibind, ask_table, on_table, istep.
    destruct (ident schema) as [n|]; [|done].
    destruct (pg_schemas (working s) !! n) as [[t|]|]; done.
  Qed.
  Lemma interp_unwrap_select {A} (f : list row -> exec A) : interp (punwrap (select f)) ≈ iunwrap (ask_table ident schema f).
  Proof.
    intros [[|k] s]; [done|]. cbn. unfold iunwrap, ibind, ask_table, on_table, istep.
    destruct (ident schema) as [n|]; [|done].
    destruct (pg_schemas (working s) !! n) as [[t|]|]; done.
  Qed.
  Lemma interp_stop {A} (r : exec A) : interp (Stop r) ≈ iread (fun _ => r).
  Proof. done. Qed.

  Lemma interp_ensure : interp p_ensure_initialized ≈ ensure_initialized ident schema.
  Proof.
    intros s. unfold p_ensure_initialized, ensure_initialized. rewrite interp_bind.
    apply ibind_cong; [apply interp_exists|]. intros [] s'; [done|].
    unfold create_meta_schema. rewrite interp_bind. apply ibind_cong; [apply replied_tell, create_schema_raises|]. intros _ s1.
    rewrite interp_bind. apply ibind_cong; [apply replied_tell, create_table_raises|]. intros _ s2. apply interp_insert.
  Qed.
  Lemma interp_current : interp p_current_version ≈ db_current_version ident schema.
  Proof.
    intros s. unfold p_current_version, db_current_version. rewrite interp_bind.
    apply ibind_cong; [apply interp_exists|]. intros [] s'; [apply interp_select|].
    done.
  Qed.
  Lemma interp_range from to : interp (p_downward_range from to) ≈ get_downward_range ident schema from to.
  Proof.
    intros s. unfold p_downward_range, get_downward_range. rewrite interp_bind.
    apply ibind_cong; [apply interp_select|]. intros o s1. rewrite interp_bind.
    apply ibind_cong; [apply interp_select|]. intros o' s2. destruct o, o'; try done. apply interp_select.
  Qed.
  Lemma interp_execute_all stmts : interp (p_execute_all stmts) ≈ execute_all sem stmts.
  Proof.
    induction stmts as [|stmt stmts IH]; [done|]. intros s. cbn [p_execute_all execute_all]. rewrite interp_bind.
    apply ibind_cong; [|intros _; exact IH]. intros s1. rewrite interp_unwrap_tell.
    - apply iunwrap_cong, interp_execute.
    - intros s' e. apply replied_total, execute_raises.
  Qed.
  Lemma interp_apply d names : interp (p_apply_versions d names) ≈ apply_versions sem ident d schema names.
  Proof.
    induction names as [|n names IH]; [done|]. intros s. cbn [p_apply_versions apply_versions]. rewrite interp_bind.
    apply ibind_cong; [apply interp_stop|]. intros v s1. rewrite interp_bind.
    apply ibind_cong; [apply interp_execute_all|]. intros _ s2. rewrite interp_bind.
    apply ibind_cong; [|intros _; exact IH]. intros s3. rewrite interp_unwrap_tell.
    - apply iunwrap_cong, interp_insert.
    - intros s' e. apply replied_total, on_table_raises, insert_row_raises.
  Qed.
  Lemma interp_revert names : interp (p_revert_versions names) ≈ revert_versions sem ident schema names.
  Proof.
    induction names as [|n names IH]; [done|]. intros s. cbn [p_revert_versions revert_versions]. rewrite interp_bind.
    apply ibind_cong; [apply interp_unwrap_select|]. intros v s1. rewrite interp_bind.
    apply ibind_cong; [apply interp_execute_all|]. intros _ s2. rewrite interp_bind.
    apply ibind_cong; [|intros _; exact IH]. intros s3. rewrite interp_unwrap_tell.
    - apply iunwrap_cong, interp_delete.
    - intros s' e. apply replied_total, on_table_raises, delete_row_raises.
  Qed.

  Lemma interp_up l d version : interp (up_program l d version) ≈ up sem ident l d schema version.
  Proof.
    intros s. unfold up_program, up. rewrite interp_bind.
    apply ibind_cong; [apply interp_stop|]. intros h s1. rewrite interp_bind.
    apply ibind_cong; [apply interp_ensure|]. intros _ s2. rewrite interp_bind.
    apply ibind_cong; [apply interp_current|]. intros current s3. rewrite interp_bind.
    apply ibind_cong; [apply interp_stop|]. intros to s4. rewrite interp_bind.
    apply ibind_cong; [apply interp_stop|]. intros [|n names] s5; [done|]. rewrite interp_bind.
    apply ibind_cong; [apply interp_apply|]. intros _. apply interp_commit.
  Qed.
  Lemma interp_down version : interp (down_program version) ≈ down sem ident schema version.
  Proof.
    intros s. unfold down_program, down. rewrite interp_bind.
    apply ibind_cong; [apply interp_ensure|]. intros _ s1. rewrite interp_bind.
    apply ibind_cong; [apply interp_current|]. intros current s2.
    destruct (match version with Some v => Some v | None => v_previous current end) as [to|]; [|done].
    rewrite interp_bind. apply ibind_cong; [apply interp_range|]. intros [|n names] s3; [done|]. rewrite interp_bind.
    apply ibind_cong; [apply interp_revert|]. intros _. apply interp_commit.
  Qed.
End refine.
