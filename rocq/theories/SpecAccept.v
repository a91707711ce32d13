(** Specification vocabulary: which changes PostgreSQL carries out on a database that a
    snapshot describes, in terms of the snapshot.

    As in [SpecServer], data, privileges, types and expressions are left out: PostgreSQL may
    refuse more; and changes whose effect depends on these count as refused. *)
From Verif Require Import Base Text Types Changes SpecSnapshot SpecSql SpecLex SpecStatement SpecServer.

(** The columns of a key. *)
Definition key_columns (c : constraint) : option (list str) :=
  match c with
  | CPrimaryKey c => Some (pk_columns c)
  | CUnique c => Some (uq_columns c)
  | CForeignKey _ | CCheck _ => None
  end.
(** Keys share the names of relations. *)
Definition name_free (d : database) (s n : str) : Prop :=
  relation_at d s n = None /\ forall t c, constraint_at d s t n = Some c -> key_columns c = None.
Definition columns_exist (d : database) (s t : str) (cs : list str) : Prop :=
  NoDup cs /\ Forall (fun n => is_Some (column_at d s t n)) cs.
Definition same_set (a b : list str) : Prop := forall x, x ∈ a <-> x ∈ b.
(** A foreign key of another table than [but] refers to columns of the table. *)
Definition referenced (d : database) (but : option (str * str)) (s t : str) (P : list str -> Prop) : Prop :=
  exists s1 t1 k f, constraint_at d s1 t1 k = Some (CForeignKey f) /\ but <> Some (s1, t1) /\
    fk_tschema f = s /\ fk_ttable f = t /\ P (fk_tcolumns f).
(** The expressions of the checks of a table. *)
Definition checked (d : database) (s t : str) (P : list token -> Prop) : Prop :=
  exists k c e, constraint_at d s t k = Some (CCheck c) /\ expression_meant (ck_expression c) = Some e /\ P e.
(** The keys of the indexes of a table. *)
Definition indexed_by (d : database) (s t : str) (P : list token -> Prop) : Prop :=
  exists k i e l, relation_at d s k = Some (RIndex i) /\ ix_table i = t /\ e ∈ ix_keys i /\ lex e = Some l /\ P l.

Definition accepted (c : change) (d : database) : Prop :=
  match c with
  | AddForeignKey s t _ cs s' t' tcs _ _ _ _ _ =>
      columns_exist d s t cs /\ length cs = length tcs /\
      exists k c cs', constraint_at d s' t' k = Some c /\ key_columns c = Some cs' /\ same_set tcs cs'
  | AddPrimaryKey s t n cs _ _ =>
      name_free d s n /\ columns_exist d s t cs /\
      forall k p, constraint_at d s t k <> Some (CPrimaryKey p)
  | AddUnique s t n cs _ _ => name_free d s n /\ columns_exist d s t cs
  | AlterCheck _ _ _ _ _ | AlterPrimaryKey _ _ _ _ _ | AlterUnique _ _ _ _ _ => False
  | AlterColumnSetDataType _ _ _ ty => forall l, lex ty = Some l -> serial l = false
  | AlterColumnSetNotNull s t n b =>
      b = true \/ forall k p, constraint_at d s t k = Some (CPrimaryKey p) -> n ∉ pk_columns p
  | CreateIndex s _ n _ _ _ | CreateTable s n _ | CreateView s n _ => name_free d s n
  | CreateSequence s n ty inc mn mx st ca cy =>
      name_free d s n /\ exists q, sequence_meant ty inc mn mx st ca cy = Some q /\ valid_sequence q = true
  | CreateSchema n => starts_with (L "pg_") n = false
  | DropPrimaryKey s t n | DropUnique s t n =>
      forall c cs, constraint_at d s t n = Some c -> key_columns c = Some cs ->
        ~ referenced d None s t (same_set cs)
  | DropColumn s t n =>
      ~ referenced d None s t (fun cs => n ∈ cs) /\ ~ checked d s t (fun e => mentions n e = true) /\
      ~ indexed_by d s t (fun e => mentions n e = true /\ one_name e <> Some n)
  | DropSchema n => forall k, relation_at d n k = None /\ function_at d n k = None
  | DropTable s t => table_at d s t /\ ~ referenced d (Some (s, t)) s t (fun _ => True)
  | RenameColumn s t n n' =>
      n' <> n /\ ~ referenced d None s t (fun cs => n ∈ cs) /\
      (forall k c, constraint_at d s t k = Some c -> n ∉ constrained_columns c) /\
      ~ checked d s t (fun e => mentions n e = true) /\ ~ indexed_by d s t (fun e => mentions n e = true) /\
      forall k q, relation_at d s k = Some (RSequence q) -> owner_meant q <> Some (t, n)
  | _ => True
  end.

(** All of the changes, each in the snapshot that it is applied to. *)
Fixpoint acceptable (d : database) (cs : list change) : Prop :=
  match cs with
  | [] => True
  | c :: cs => accepted c d /\ forall d', apply c d = (d', Ok ()) -> acceptable d' cs
  end.
