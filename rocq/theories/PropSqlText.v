(** Property C67: the SQL texts generated for SQLite are read as the intended statements,
    and have the intended effect. *)
From Coq Require Import String List NArith ZArith Lia Bool.
From Verif Require Import Prelude Utf8 Text Datatype SqlUtil PropSqlUtil SqlRead SqlText SqlTextProofs.
Import ListNotations.
Local Open Scope nat_scope.
Local Open Scope list_scope.

(** ** Specification *)

(** [clean_name] (SqlTextProofs.v): neither a backquote nor NUL. *)

(** A condition of osp-core, for a row of the join ([e]: the value of each column of
    each alias), with the comparison of the database. *)
Fixpoint meets {A} (same : nd A -> nd A -> bool) (e : env (nd A)) (x : cond A) : bool :=
  match x with
  | CEq t c v _ => same (e t c) v
  | CJoin t1 c1 t2 c2 => same (e t1 c1) (e t2 c2)
  | CAnd l => forallb (meets same e) l
  end.
Definition meets_opt {A} same (e : env (nd A)) (x : option (cond A)) : bool :=
  match x with None => true | Some x => meets same e x end.

(** The columns a condition mentions. *)
Fixpoint cond_cols {A} (x : cond A) : list (str * str) :=
  match x with
  | CEq t c _ _ => [(t, c)]
  | CJoin t1 c1 t2 c2 => [(t1, c1); (t2, c2)]
  | CAnd l => flat_map cond_cols l
  end.
Definition opt_cols {A} (x : option (cond A)) : list (str * str) :=
  match x with None => [] | Some x => cond_cols x end.
Definition opt_narrow {A} (x : option (cond A)) : Prop :=
  match x with None => True | Some x => narrow x end.

(** Queries that can be built. *)
Inductive built {A} (as_set : list (cond A) -> list (cond A)) : query A -> Prop :=
| b_new t cs a : built as_set (q_new t cs a)
| b_join q t cs a q' : built as_set q -> q_join q t cs a = Ok q' -> built as_set q'
| b_where q c : built as_set q -> built as_set (q_where as_set q c).

Definition query_names {A} (q : query A) : list str :=
  flat_map (fun '(a, t, cs) => a :: t :: cs) (q_parts q) ++ opt_names (q_cond q).

(** The tables and columns of the query exist in the database. *)
Definition query_fits {A} (q : query A) (db : database (nd A)) : Prop :=
  (forall a t cs, In (a, t, cs) (q_parts q) ->
     exists x, db t = Some x /\ (forall c, In c cs -> In c (tcols x)))
  /\ (forall a c, In (a, c) (opt_cols (q_cond q)) ->
     exists t cs x, In (a, t, cs) (q_parts q) /\ db t = Some x /\ In c (tcols x)).

Definition rows_of {V} (db : database V) (t : str) : list (row V) :=
  match db t with Some x => trows x | None => [] end.

(** All choices of one row per table of the query that meet its condition, projected to
    the columns of the query. *)
Definition query_answer {A} (null : nd A) same (q : query A) (db : database (nd A)) : list (list (nd A)) :=
  map (fun e => map (fun '(a, c) => e a c) (q_columns q))
    (filter (fun e => meets_opt same e (q_cond q))
      (product null (map (fun '(a, t, _) => (a, rows_of db t)) (q_parts q)))).

(** One row, seen as a row of the table [t]. *)
Definition row_env {V} (null : V) (t : str) (r : row V) : env V := bind_row t r (fun _ _ => null).
(** The condition only mentions columns of the table [t]. *)
Definition about {A} (t : str) (x : table (nd A)) (c : option (cond A)) : Prop :=
  forall a k, In (a, k) (opt_cols c) -> a = t /\ In k (tcols x).

(** Statements executed one after the other. *)
Fixpoint execute_all {V} (null : V) same admit_row (texts : list str) (db : database V)
  : option (database V) :=
  match texts with
  | [] => Some db
  | s :: r => match execute null same admit_row s (fun _ => None) db with
              | Some (Done db' _) => execute_all null same admit_row r db'
              | _ => None
              end
  end.

(** ** Auxiliary facts *)

Lemma Lx_read s ts : Lx s ts -> lex Top s = Some ts.
Proof. intros H. specialize (H [] I). rewrite app_nil_r in H. rewrite H. cbn. now rewrite app_nil_r. Qed.

Lemma word_ok w r : word w (TWord (lit w) :: r) = Some (tt, r).
Proof. unfold word. now rewrite str_eqb_refl. Qed.

Definition from_toks (x : str * str) : list token := [TName (fst x); TWord (lit "AS"); TName (snd x)].
Definition set_toks (x : str * str) : list token := [TName (fst x); TSym 61; TParam (snd x)].
Definition item_toks (x : item) : list token :=
  match x with
  | Column c ty => [TName c; TName ty]
  | PrimaryKey cs => [TWord (lit "PRIMARY"); TWord (lit "KEY"); TSym 40]
                     ++ tjoin [TSym 44] (map (fun c => [TName c]) cs) ++ [TSym 41]
  | ForeignKey c t c' => [TWord (lit "FOREIGN"); TWord (lit "KEY"); TSym 40; TName c; TSym 41;
                          TWord (lit "REFERENCES"); TName t; TSym 40; TName c'; TSym 41]
  end.
Lemma from_item_ok x r : from_item (from_toks x ++ r) = Some (x, r).
Proof. destruct x. reflexivity. Qed.
Lemma set_item_ok x r : set_item (set_toks x ++ r) = Some (x, r).
Proof. destruct x. reflexivity. Qed.
Lemma create_item_ok x r :
  match x with PrimaryKey cs => cs <> [] | _ => True end -> create_item (item_toks x ++ r) = Some (x, r).
Proof.
  destruct x as [c ty|cs|c t c']; intros H; [reflexivity| |reflexivity].
  unfold item_toks. rewrite <- !app_assoc. cbn [app]. unfold create_item.
  rewrite str_eqb_refl. unfold words, seqp, parens, ret, seqp. rewrite !word_ok.
  change (sym 40 (TSym 40 :: ?r)) with (Some (tt, r)). cbv beta iota.
  rewrite list_of_ok; [reflexivity | intros; apply name_ok | reflexivity | auto].
Qed.

Section Stmts.
  Context (w : list comparison) (Hw : w <> []).
  Let wt : list token := tjoin [TWord (lit "AND")] (map cmp_toks w).

  Lemma statement_select cs fs : cs <> [] -> fs <> [] ->
    statement ([TWord (lit "SELECT")] ++ tjoin [TSym 44] (map colref_toks cs) ++ [TWord (lit "FROM")]
      ++ tjoin [TSym 44] (map from_toks fs) ++ [TWord (lit "WHERE")] ++ wt ++ [TSym 59])
    = Some (Select cs fs w, [TSym 59]).
  Proof.
    intros Hc Hf. cbn [app]. unfold statement. rewrite str_eqb_refl. unfold seqp, ret. rewrite word_ok.
    rewrite list_of_ok; [|intros; apply colref_ok | reflexivity | auto]. cbv beta iota. rewrite word_ok.
    rewrite list_of_ok; [|intros; apply from_item_ok | reflexivity | auto]. cbv beta iota. rewrite word_ok.
    unfold wt. rewrite condition_ok; auto.
  Qed.
  Lemma statement_update t ss : ss <> [] ->
    statement ([TWord (lit "UPDATE")] ++ [TName t] ++ [TWord (lit "SET")]
      ++ tjoin [TSym 44] (map set_toks ss) ++ [TWord (lit "WHERE")] ++ wt ++ [TSym 59])
    = Some (Update t ss w, [TSym 59]).
  Proof.
    intros Hs. cbn [app]. unfold statement.
    replace (str_eqb (lit "UPDATE") (lit "SELECT")) with false by reflexivity.
    replace (str_eqb (lit "UPDATE") (lit "INSERT")) with false by reflexivity.
    rewrite str_eqb_refl. unfold seqp, ret. rewrite word_ok. cbn [name]. rewrite word_ok.
    rewrite list_of_ok; [|intros; apply set_item_ok | reflexivity | auto]. cbv beta iota. rewrite word_ok.
    unfold wt. rewrite condition_ok; auto.
  Qed.
  Lemma statement_delete t :
    statement ([TWord (lit "DELETE"); TWord (lit "FROM")] ++ [TName t] ++ [TWord (lit "WHERE")] ++ wt ++ [TSym 59])
    = Some (Delete t w, [TSym 59]).
  Proof.
    cbn [app]. unfold statement.
    replace (str_eqb (lit "DELETE") (lit "SELECT")) with false by reflexivity.
    replace (str_eqb (lit "DELETE") (lit "INSERT")) with false by reflexivity.
    replace (str_eqb (lit "DELETE") (lit "UPDATE")) with false by reflexivity.
    rewrite str_eqb_refl. unfold words, seqp, ret. rewrite !word_ok. cbn [name]. rewrite word_ok.
    unfold wt. rewrite condition_ok; auto.
  Qed.
End Stmts.

Lemma statement_insert t cs ps : cs <> [] -> ps <> [] ->
  statement ([TWord (lit "INSERT"); TWord (lit "INTO")] ++ [TName t] ++ [TSym 40]
    ++ tjoin [TSym 44] (map (fun c => [TName c]) cs) ++ [TSym 41; TWord (lit "VALUES"); TSym 40]
    ++ tjoin [TSym 44] (map (fun c => [TParam c]) ps) ++ [TSym 41; TSym 59])
  = Some (Insert t cs ps, [TSym 59]).
Proof.
  intros Hc Hp. cbn [app]. unfold statement.
  replace (str_eqb (lit "INSERT") (lit "SELECT")) with false by reflexivity.
  rewrite str_eqb_refl. unfold words, seqp, parens, ret, seqp. rewrite !word_ok. cbn [name].
  change (sym 40 (TSym 40 :: ?r)) with (Some (tt, r)). cbv beta iota.
  rewrite list_of_ok; [|intros; apply name_ok | reflexivity | auto].
  change (sym 41 (TSym 41 :: ?r)) with (Some (tt, r)). cbv beta iota. rewrite word_ok.
  change (sym 40 (TSym 40 :: ?r)) with (Some (tt, r)). cbv beta iota.
  rewrite list_of_ok; [|intros; apply param_ok | reflexivity | auto]. reflexivity.
Qed.

Lemma statement_create t is : is <> [] ->
  (forall cs, In (PrimaryKey cs) is -> cs <> []) ->
  statement ([TWord (lit "CREATE"); TWord (lit "TABLE"); TWord (lit "IF"); TWord (lit "NOT"); TWord (lit "EXISTS")]
    ++ [TName t] ++ [TSym 40] ++ tjoin [TSym 44] (map item_toks is) ++ [TSym 41; TSym 59])
  = Some (CreateTable t is, [TSym 59]).
Proof.
  intros Hi Hp. cbn [app]. unfold statement.
  replace (str_eqb (lit "CREATE") (lit "SELECT")) with false by reflexivity.
  replace (str_eqb (lit "CREATE") (lit "INSERT")) with false by reflexivity.
  replace (str_eqb (lit "CREATE") (lit "UPDATE")) with false by reflexivity.
  replace (str_eqb (lit "CREATE") (lit "DELETE")) with false by reflexivity.
  replace (str_eqb (lit "CREATE") (lit "DROP")) with false by reflexivity.
  unfold seqp, ret. rewrite word_ok. cbv beta iota. rewrite str_eqb_refl.
  unfold words, seqp, parens, ret, seqp. rewrite !word_ok. cbn [name].
  change (sym 40 (TSym 40 :: ?r)) with (Some (tt, r)). cbv beta iota.
  rewrite list_of_ok; [reflexivity | | reflexivity | auto].
  intros x r Hx. apply create_item_ok. destruct x; auto.
Qed.

Lemma statement_index i t cs : cs <> [] ->
  statement ([TWord (lit "CREATE"); TWord (lit "INDEX"); TWord (lit "IF"); TWord (lit "NOT"); TWord (lit "EXISTS")]
    ++ [TName i] ++ [TWord (lit "ON")] ++ [TName t] ++ [TSym 40]
    ++ tjoin [TSym 44] (map (fun c => [TName c]) cs) ++ [TSym 41])
  = Some (CreateIndex i t cs, []).
Proof.
  intros Hc. cbn [app]. unfold statement.
  replace (str_eqb (lit "CREATE") (lit "SELECT")) with false by reflexivity.
  replace (str_eqb (lit "CREATE") (lit "INSERT")) with false by reflexivity.
  replace (str_eqb (lit "CREATE") (lit "UPDATE")) with false by reflexivity.
  replace (str_eqb (lit "CREATE") (lit "DELETE")) with false by reflexivity.
  replace (str_eqb (lit "CREATE") (lit "DROP")) with false by reflexivity.
  unfold seqp, ret. rewrite word_ok. cbv beta iota.
  replace (str_eqb (lit "INDEX") (lit "TABLE")) with false by reflexivity.
  unfold words, seqp, parens, ret, seqp. rewrite !word_ok. cbn [name]. rewrite word_ok. cbv beta iota. cbn [name].
  change (sym 40 (TSym 40 :: ?r)) with (Some (tt, r)). cbv beta iota.
  rewrite list_of_ok; [reflexivity | intros; apply name_ok | reflexivity | auto].
Qed.

(** ** The texts are read as the intended statements *)

Lemma Lx0_semi : Lx0 (lit ";") [TSym 59]. Proof. lx0. Qed.
Lemma Lx0_where : Lx0 (lit " WHERE ") [TWord (lit "WHERE")]. Proof. lx0. Qed.

Lemma Lx_names l : Forall clean_name l ->
  Lx (join_with (lit ", ") (map bq l)) (tjoin [TSym 44] (map (fun c => [TName c]) l)).
Proof. intros H. apply Lx_commas. eapply Forall_impl; [|exact H]. intros; now apply Lx_bq. Qed.

Lemma Lx_where {A} (x : option (cond A)) : Forall clean_name (opt_names x) ->
  Lx (lit " WHERE " ++ condition_text x ++ lit ";")
     ([TWord (lit "WHERE")] ++ tjoin [TWord (lit "AND")] (map cmp_toks (map cmp_of (opt_atoms x))) ++ [TSym 59]).
Proof.
  intros H. apply Lx0_app; [apply Lx0_where|]. apply Lx_app; [now apply Lx_condition | apply Lx0_Lx, Lx0_semi | stp].
Qed.

(** What SQLite reads for the text of each statement; [opt_atoms] are the comparisons of
    the condition with their parameters (C36). *)
Theorem C67_reads_select : forall {A} (q : query A),
  Forall clean_name (query_names q) -> q_columns q <> [] ->
  read (fst (db_select q))
  = Some (Select (q_columns q) (map (fun '(a, t, _) => (t, a)) (q_parts q)) (map cmp_of (opt_atoms (q_cond q)))).
Proof.
  intros A q Hn Hc. unfold query_names in Hn. apply Forall_app in Hn as [Hn Hw].
  assert (Hp : q_parts q <> []) by (intros E; apply Hc; unfold q_columns; now rewrite E).
  unfold read. erewrite Lx_read.
  2: { cbn [fst db_select]. apply Lx0_app with (t1 := [TWord (lit "SELECT")]); [lx0|].
       apply Lx_app; [apply Lx_commas with (g := colref_toks) | | stp].
       - apply Forall_forall. intros (a, c) Hin. unfold q_columns in Hin.
         apply in_flat_map in Hin as (((a', t), cs) & Hin & Hm). apply in_map_iff in Hm as (c' & E & Hc').
         injection E as -> ->. rewrite Forall_forall in Hn.
         assert (Hall : forall s, In s (a :: t :: cs) -> clean_name s).
         { intros s Hs. apply Hn. apply in_flat_map. exists (a, t, cs). auto. }
         apply Lx_colref; apply Hall; cbn; auto.
       - apply Lx0_app with (t1 := [TWord (lit "FROM")]); [lx0|].
         apply Lx_app; [|apply Lx_where; exact Hw | stp].
         apply Lx_commas with (g := fun '(a, t, _) => from_toks (t, a)).
         apply Forall_forall. intros ((a, t), cs) Hin. rewrite Forall_forall in Hn.
         assert (Hall : forall s, In s (a :: t :: cs) -> clean_name s).
         { intros s Hs. apply Hn. apply in_flat_map. exists (a, t, cs). auto. }
         change (from_toks (t, a)) with ([TName t] ++ [TWord (lit "AS")] ++ [TName a]).
         apply Lx_app; [apply Lx_bq, Hall; cbn; auto | | stp].
         apply Lx0_app; [lx0 | apply Lx_bq, Hall; cbn; auto]. }
  cbv beta iota.
  replace (map (fun '(a, t, _) => from_toks (t, a)) (q_parts q))
    with (map from_toks (map (fun '(a, t, _) => (t, a)) (q_parts q))).
  2: { rewrite map_map. apply map_ext. intros ((a, t), cs). reflexivity. }
  rewrite statement_select; [reflexivity | apply opt_atoms_ne | auto |].
  intros E. apply map_eq_nil in E. auto.
Qed.

Theorem C67_reads_delete : forall {A} t (c : option (cond A)),
  clean_name t -> Forall clean_name (opt_names c) ->
  read (fst (db_delete t c)) = Some (Delete t (map cmp_of (opt_atoms c))).
Proof.
  intros A t c Ht Hc. unfold read. erewrite Lx_read.
  2: { cbn [fst db_delete]. apply Lx0_app with (t1 := [TWord (lit "DELETE"); TWord (lit "FROM")]); [lx0|].
       apply Lx_app; [now apply Lx_bq | apply Lx_where; exact Hc | stp]. }
  cbv beta iota. rewrite statement_delete; [reflexivity | apply opt_atoms_ne].
Qed.

Lemma list_pattern_eq {A} p (vals : list (nd A)) : exists names,
  sql_list_pattern p vals = (names, combine names vals)
  /\ List.length names = List.length vals
  /\ names = map (fun i => p ++ lit "_" ++ dec i) (range (List.length vals)).
Proof. eexists. split; [reflexivity|]. split; [now rewrite map_length, range_length | reflexivity]. Qed.

Lemma names_identifier p n : identifier p -> Forall identifier (map (fun i => p ++ lit "_" ++ dec i) (range n)).
Proof.
  intros Hp. apply Forall_forall. intros s Hs. apply in_map_iff in Hs as (i & <- & _).
  apply identifier_app; [auto|]. apply identifier_app; [repeat constructor | apply identifier_dec].
Qed.

Theorem C67_reads_insert : forall {A} t cols (vals : list (nd A)),
  clean_name t -> Forall clean_name cols -> cols <> [] -> vals <> [] ->
  read (fst (db_insert t cols vals)) = Some (Insert t cols (fst (sql_list_pattern (lit "val") vals))).
Proof.
  intros A t cols vals Ht Hc Hne Hv. unfold db_insert.
  destruct (list_pattern_eq (lit "val") vals) as (names & E & Hl & Hn). rewrite E. cbn [fst].
  assert (Hi : Forall identifier names) by (rewrite Hn; apply names_identifier; repeat constructor).
  unfold read. erewrite Lx_read.
  2: { apply Lx0_app with (t1 := [TWord (lit "INSERT"); TWord (lit "INTO")]); [lx0|].
       apply Lx_app; [now apply Lx_bq | | stp].
       apply Lx0_app with (t1 := [TSym 40]); [lx0|].
       apply Lx_app; [now apply Lx_names | | stp].
       apply Lx0_app with (t1 := [TSym 41; TWord (lit "VALUES"); TSym 40]); [lx0|].
       apply Lx_app; [|apply Lx0_Lx with (ts := [TSym 41; TSym 59]); lx0 | stp].
       apply Lx_commas with (g := fun c => [TParam c]). eapply Forall_impl; [|exact Hi].
       intros s Hs. now apply Lx_param. }
  cbv beta iota. rewrite statement_insert; [reflexivity | auto |].
  intros ->. destruct vals; [congruence | discriminate].
Qed.

Theorem C67_reads_update : forall {A} t cols (vals : list (nd A)) c,
  clean_name t -> Forall clean_name cols -> cols <> [] -> vals <> [] -> Forall clean_name (opt_names c) ->
  read (fst (db_update t cols vals c))
  = Some (Update t (combine cols (fst (sql_list_pattern (lit "val") vals))) (map cmp_of (opt_atoms c))).
Proof.
  intros A t cols vals c Ht Hc Hne Hv Hw. unfold db_update.
  destruct (list_pattern_eq (lit "val") vals) as (names & E & Hl & Hn). rewrite E. cbn [fst].
  assert (Hi : Forall identifier names) by (rewrite Hn; apply names_identifier; repeat constructor).
  unfold read. erewrite Lx_read.
  2: { apply Lx0_app with (t1 := [TWord (lit "UPDATE")]); [lx0|].
       apply Lx_app; [now apply Lx_bq | | stp].
       apply Lx0_app with (t1 := [TWord (lit "SET")]); [lx0|].
       apply Lx_app; [|apply Lx_where; exact Hw | stp].
       apply Lx_commas with (g := set_toks). apply Forall_forall. intros (k, v) Hin.
       rewrite Forall_forall in Hc, Hi. pose proof (Hc k (in_combine_l _ _ _ _ Hin)) as Hk.
       pose proof (Hi v (in_combine_r _ _ _ _ Hin)) as Hv'.
       change (set_toks (k, v)) with ([TName k] ++ [TSym 61] ++ [TParam v]).
       apply Lx_app; [now apply Lx_bq | | stp]. apply Lx0_app; [apply Lx0_speq | now apply Lx_param]. }
  cbv beta iota. rewrite statement_update; [reflexivity | apply opt_atoms_ne |].
  destruct cols; [congruence|]. destruct vals; [congruence|]. destruct names; [discriminate|]. discriminate.
Qed.

Theorem C67_reads_drop : forall t, clean_name t -> read (db_drop t) = Some (Drop t).
Proof.
  intros t Ht. unfold read. erewrite Lx_read.
  2: { unfold db_drop.
       apply Lx0_app with (t1 := [TWord (lit "DROP"); TWord (lit "TABLE"); TWord (lit "IF"); TWord (lit "EXISTS")]); [lx0|].
       now apply Lx_bq. }
  cbn. reflexivity.
Qed.

(** ** The statements have the intended effect *)

Section Effect.
  Context {A : Type} (null : nd A) (same : nd A -> nd A -> bool)
    (admit_row : str -> list (row (nd A)) -> row (nd A) -> option (row (nd A))).

  Lemma pattern_meets (e : env (nd A)) (ps : params A) (x : cond A) prefix :
    (forall k v, In (k, v) (snd (get_condition_pattern x prefix)) -> plookup ps k = Some v) ->
    forallb (holds_in same (plookup ps) e) (map cmp_of (fst (get_condition_pattern x prefix))) = meets same e x.
  Proof.
    revert prefix; induction x as [t c v dt|t1 c1 t2 c2|l IH] using cond_rect'; intros prefix Hps.
    - cbn in *. rewrite (Hps _ v (or_introl eq_refl)). apply andb_true_r.
    - cbn. apply andb_true_r.
    - destruct l as [|y0 l0]; [reflexivity|]. rewrite gcp_and in * by discriminate.
      set (l := y0 :: l0) in *. clearbody l. clear y0 l0. cbn [meets].
      revert Hps. generalize 0%N as i. induction IH as [|y r Hy HF IHr]; intros i Hps; [reflexivity|].
      cbn in *. rewrite map_app, forallb_app, Hy, IHr; [reflexivity | |].
      + intros k v Hin. apply Hps. apply in_or_app. now right.
      + intros k v Hin. apply Hps. apply in_or_app. now left.
  Qed.
  Lemma opt_meets (e : env (nd A)) (ps : params A) (x : option (cond A)) :
    (forall k v, In (k, v) (condition_params x) -> plookup ps k = Some v) ->
    forallb (holds_in same (plookup ps) e) (map cmp_of (opt_atoms x)) = meets_opt same e x.
  Proof. destruct x as [x|]; [apply pattern_meets | reflexivity]. Qed.

  Lemma pattern_scoped scope (ps : params A) (x : cond A) prefix :
    (forall k v, In (k, v) (snd (get_condition_pattern x prefix)) -> plookup ps k = Some v) ->
    (forall t c, In (t, c) (cond_cols x) -> knows scope t c = true) ->
    forallb (well_scoped (plookup ps) scope) (map cmp_of (fst (get_condition_pattern x prefix))) = true.
  Proof.
    revert prefix; induction x as [t c v dt|t1 c1 t2 c2|l IH] using cond_rect'; intros prefix Hps Hk.
    - cbn in *. rewrite (Hps _ v (or_introl eq_refl)), Hk by auto. reflexivity.
    - cbn in *. rewrite !Hk by auto. reflexivity.
    - destruct l as [|y0 l0]; [reflexivity|]. rewrite gcp_and in * by discriminate.
      set (l := y0 :: l0) in *. clearbody l. clear y0 l0. cbn [cond_cols] in Hk.
      revert Hps. generalize 0%N as i. induction IH as [|y r Hy HF IHr]; intros i Hps; [reflexivity|].
      cbn in *. rewrite map_app, forallb_app, Hy, IHr; [reflexivity | | | |].
      + intros t c Hin. apply Hk. apply in_or_app. now right.
      + intros k v Hin. apply Hps. apply in_or_app. now right.
      + intros k v Hin. apply Hps. apply in_or_app. now left.
      + intros t c Hin. apply Hk. apply in_or_app. now left.
  Qed.
  Lemma opt_scoped scope (ps : params A) (x : option (cond A)) :
    (forall k v, In (k, v) (condition_params x) -> plookup ps k = Some v) ->
    (forall t c, In (t, c) (opt_cols x) -> knows scope t c = true) ->
    forallb (well_scoped (plookup ps) scope) (map cmp_of (opt_atoms x)) = true.
  Proof. destruct x as [x|]; [apply pattern_scoped | reflexivity]. Qed.

  Lemma opt_params (x : option (cond A)) : opt_narrow x ->
    forall k v, In (k, v) (condition_params x) -> plookup (condition_params x) k = Some v.
  Proof.
    destruct x as [x|]; [|intros _ k v []]. intros Hn k v Hin. apply plookup_in; [|exact Hin].
    now apply keys_distinct.
  Qed.

  Lemma in_list_iff s l : in_list s l = true <-> In s l.
  Proof.
    unfold in_list. rewrite existsb_exists. split.
    - intros (x & Hx & E). apply str_eqb_eq in E. now subst.
    - intros H. exists s. split; [auto | apply str_eqb_refl].
  Qed.
  Lemma distinct_iff l : distinct l = true <-> NoDup l.
  Proof.
    induction l as [|x l IH]; cbn; [split; constructor|]. rewrite andb_true_iff, negb_true_iff, IH. split.
    - intros [H1 H2]. constructor; [|auto]. intros Hin. apply in_list_iff in Hin. congruence.
    - intros H. inversion H; subst. split; [|auto]. destruct (in_list x l) eqn:E; [|auto].
      apply in_list_iff in E. contradiction.
  Qed.
  Lemma knows_iff (scope : list (str * table (nd A))) t c :
    knows scope t c = true <-> exists x, In (t, x) scope /\ In c (tcols x).
  Proof.
    unfold knows. rewrite existsb_exists. split.
    - intros ((a, x) & Hin & E). apply andb_true_iff in E as [E1 E2]. apply str_eqb_eq in E1. subst a.
      exists x. split; [auto | now apply in_list_iff].
    - intros (x & Hin & Hc). exists (t, x). split; [auto|]. rewrite str_eqb_refl. cbn. now apply in_list_iff.
  Qed.

  (** Aliases of a query are distinct. *)
  Lemma built_aliases as_set (q : query A) : built as_set q -> NoDup (map (fun '(a, _, _) => a) (q_parts q)).
  Proof.
    induction 1 as [t cs a|q t cs a q' Hb IH E|q c Hb IH].
    - cbn. constructor; [intros []|constructor].
    - unfold q_join in E. destruct (existsb _ _) eqn:Ex; [discriminate|]. apply Ok_inj in E. subst q'. cbn [q_parts].
      rewrite map_app. apply NoDup_app_intro; [auto | cbn; constructor; [intros [] | constructor]|].
      intros x Hx [<-|[]]. apply in_map_iff in Hx as (((a', t'), cs') & E' & Hin).
      assert (existsb (fun '(a', _, _) => str_eqb (alias_or a t) a') (q_parts q) = true); [|congruence].
      apply existsb_exists. exists (a', t', cs'). split; [auto|]. subst a'. apply str_eqb_refl.
    - destruct c as [c|]; [|exact IH]. exact IH.
  Qed.

  Lemma find_tables_ok (db : database (nd A)) (parts : list (str * str * list str)) :
    (forall a t cs, In (a, t, cs) parts -> exists x, db t = Some x) ->
    exists scope, find_tables db (map (fun '(a, t, _) => (t, a)) parts) = Some scope
      /\ map (fun '(a, x) => (a, trows x)) scope = map (fun '(a, t, _) => (a, rows_of db t)) parts
      /\ (forall a t cs x, In (a, t, cs) parts -> db t = Some x -> In (a, x) scope).
  Proof.
    induction parts as [|((a, t), cs) parts IH]; intros H.
    - exists []. split; [reflexivity|]. split; [reflexivity | intros ? ? ? ? []].
    - destruct IH as (scope & E & Em & Hs).
      { intros a' t' cs' Hin. eapply H. right. exact Hin. }
      destruct (H a t cs (or_introl eq_refl)) as [x Hx].
      exists ((a, x) :: scope). cbn [map find_tables]. rewrite Hx, E. split; [reflexivity|]. split.
      + cbn [map]. rewrite Em. unfold rows_of. now rewrite Hx.
      + intros a' t' cs' x' [[= <- <- <-]|Hin] Hx'; [left; congruence | right; eauto].
  Qed.

  (** A query returns exactly the rows of the tables that meet its condition, and changes
      nothing. *)
  Theorem C67_select : forall as_set (q : query A) (db : database (nd A)),
    built as_set q -> Forall clean_name (query_names q) -> q_columns q <> [] -> query_fits q db ->
    opt_narrow (q_cond q) ->
    execute null same admit_row (fst (db_select q)) (plookup (snd (db_select q))) db
    = Some (Done db (query_answer null same q db)).
  Proof.
    intros as_set q db Hb Hn Hc [Hf1 Hf2] Hw. unfold execute. rewrite C67_reads_select by auto.
    unfold run. destruct (find_tables_ok db (q_parts q)) as (scope & E & Em & Hs).
    { intros a t cs Hin. destruct (Hf1 a t cs Hin) as (x & Hx & _). eauto. }
    rewrite E. cbn [snd db_select].
    replace (distinct _) with true.
    2: { symmetry. apply distinct_iff. rewrite map_map. pose proof (built_aliases as_set q Hb) as H.
         erewrite map_ext; [exact H|]. intros ((a, t), cs). reflexivity. }
    replace (forallb (fun '(t, c) => knows scope t c) (q_columns q)) with true.
    2: { symmetry. apply forallb_forall. intros (a, c) Hin. unfold q_columns in Hin.
         apply in_flat_map in Hin as (((a', t), cs) & Hin & Hm). apply in_map_iff in Hm as (c' & E' & Hc').
         injection E' as -> ->. destruct (Hf1 a t cs Hin) as (x & Hx & Hcs). apply knows_iff. exists x. eauto. }
    rewrite opt_scoped.
    2: { now apply opt_params. }
    2: { intros a c Hin. destruct (Hf2 a c Hin) as (t & cs & x & H1 & H2 & H3). apply knows_iff. exists x. eauto. }
    cbn [andb]. f_equal. f_equal. unfold query_answer. rewrite <- Em. f_equal. apply filter_ext.
    intros e. apply opt_meets. now apply opt_params.
  Qed.

  (** A deletion removes exactly the rows of the table that meet the condition. *)
  Theorem C67_delete : forall t (c : option (cond A)) (db : database (nd A)) x,
    clean_name t -> Forall clean_name (opt_names c) -> db t = Some x -> about t x c -> opt_narrow c ->
    execute null same admit_row (fst (db_delete t c)) (plookup (snd (db_delete t c))) db
    = Some (Done (dbset db t (Some (Table (tcols x)
        (filter (fun r => negb (meets_opt same (row_env null t r) c)) (trows x))))) []).
  Proof.
    intros t c db x Ht Hn Hx Ha Hw. unfold execute. rewrite C67_reads_delete by auto.
    unfold run. rewrite Hx. cbn [snd db_delete]. rewrite opt_scoped.
    2: { now apply opt_params. }
    2: { intros a k Hin. destruct (Ha a k Hin) as [-> Hk]. apply knows_iff. exists x. cbn; auto. }
    f_equal. f_equal. f_equal. f_equal. f_equal. apply filter_ext. intros r. f_equal.
    apply opt_meets. now apply opt_params.
  Qed.

  Lemma bound_combine (ps : params A) names vals : List.length names = List.length vals ->
    (forall k v, In (k, v) (combine names vals) -> plookup ps k = Some v) ->
    bound (plookup ps) names = Some vals.
  Proof.
    revert vals; induction names as [|n names IH]; intros [|v vals] Hl H; try discriminate; [reflexivity|].
    cbn. rewrite (H n v) by now left. rewrite (IH vals); [reflexivity | cbn in Hl; lia|].
    intros k w Hin. apply H. now right.
  Qed.

  (** An insertion adds one row with the given values in the given columns (NULL in the
      others), subject to the constraints of the database. *)
  Theorem C67_insert : forall t cols (vals : list (nd A)) (db : database (nd A)) x,
    clean_name t -> Forall clean_name cols -> cols <> [] -> List.length cols = List.length vals ->
    db t = Some x -> (forall c, In c cols -> In c (tcols x)) ->
    execute null same admit_row (fst (db_insert t cols vals)) (plookup (snd (db_insert t cols vals))) db
    = Some match admit_row t (trows x) (set_columns cols vals (fun _ => null)) with
           | Some r => Done (dbset db t (Some (Table (tcols x) (trows x ++ [r])))) []
           | None => UniqueError
           end.
  Proof.
    intros t cols vals db x Ht Hc Hne Hl Hx Hcs. unfold execute.
    rewrite C67_reads_insert; [|auto..|intros ->; destruct cols; [congruence | discriminate]].
    pose proof (C36_list_pattern (lit "val") vals) as HP.
    destruct (list_pattern_eq (lit "val") vals) as (names & E & Hln & Hn).
    unfold db_insert. rewrite E in *. cbn [fst snd] in *. unfold run. rewrite Hx.
    rewrite (bound_combine _ names vals); [|auto|].
    - replace (forallb _ cols) with true.
      2: { symmetry. apply forallb_forall. intros c Hin. apply in_list_iff. auto. }
      rewrite (proj2 (Nat.eqb_eq _ _) Hl). cbn [andb]. destruct (admit_row _ _ _); reflexivity.
    - intros k v Hin. apply In_nth_error in Hin as [i Hi].
      assert (Hv : nth_error vals i = Some v /\ nth_error names i = Some k).
      { clear -Hi. revert i vals Hi. induction names as [|n names IH]; intros [|i] [|w vals] Hi; try discriminate.
        - injection Hi as -> ->. auto.
        - now apply IH in Hi. }
      destruct Hv as [Hv Hk]. specialize (HP i v Hv). cbv beta iota in HP.
      destruct HP as (_ & k' & Hk' & Hlk). congruence.
  Qed.

  (** An update sets the given columns of exactly the rows that meet the condition. *)
  Theorem C67_update : forall t cols (vals : list (nd A)) c (db : database (nd A)) x,
    clean_name t -> Forall clean_name cols -> cols <> [] -> List.length cols = List.length vals ->
    Forall clean_name (opt_names c) -> db t = Some x -> (forall k, In k cols -> In k (tcols x)) ->
    about t x c -> opt_narrow c ->
    execute null same admit_row (fst (db_update t cols vals c)) (plookup (snd (db_update t cols vals c))) db
    = Some (Done (dbset db t (Some (Table (tcols x)
        (map (fun r => if meets_opt same (row_env null t r) c then set_columns cols vals r else r) (trows x))))) []).
  Proof.
    intros t cols vals c db x Ht Hc Hne Hl Hn Hx Hcs Ha Hw. unfold execute.
    rewrite C67_reads_update; [|auto|auto|auto|intros ->; destruct cols; [congruence | discriminate]|auto].
    destruct (list_pattern_eq (lit "val") vals) as (names & E & Hln & Hnm).
    assert (HU : (forall k v, In (k, v) (combine names vals) \/ In (k, v) (condition_params c) ->
              plookup (combine names vals ++ condition_params c) k = Some v)).
    { destruct c as [c|].
      - pose proof (C36_update_parameters vals c Hw) as HU. cbv zeta in HU. rewrite E in HU. apply HU.
      - intros k v [Hin|[]]. cbn [condition_params]. rewrite app_nil_r.
        pose proof (C36_update_parameters vals (CAnd (A:=A) []) (conj (or_introl (Nat.le_0_l 10)) I)) as HU.
        cbv zeta in HU. rewrite E in HU. destruct HU as [_ HU]. specialize (HU k v (or_introl Hin)).
        cbn [snd get_condition_pattern] in HU. now rewrite app_nil_r in HU. }
    unfold db_update. rewrite E. cbn [fst snd]. unfold run. rewrite Hx.
    assert (Hfst : map fst (combine cols names) = cols /\ map snd (combine cols names) = names).
    { assert (Hll : List.length cols = List.length names) by congruence. clear -Hll.
      revert names Hll. induction cols as [|k cols IH]; intros [|n names] Hl; try discriminate; [auto|].
      cbn. destruct (IH names) as [-> ->]; [cbn in Hl; lia | auto]. }
    destruct Hfst as [-> ->].
    rewrite (bound_combine _ names vals); [|auto | intros; apply HU; auto].
    replace (forallb _ cols) with true.
    2: { symmetry. apply forallb_forall. intros k Hin. apply in_list_iff. auto. }
    rewrite opt_scoped.
    2: { intros k v Hin. apply HU. auto. }
    2: { intros a k Hin. destruct (Ha a k Hin) as [-> Hk]. apply knows_iff. exists x. cbn; auto. }
    cbn [andb]. f_equal. f_equal. f_equal. f_equal. f_equal. apply map_ext. intros r.
    rewrite opt_meets by (intros; apply HU; auto). reflexivity.
  Qed.

  Theorem C67_drop : forall t (db : database (nd A)) bind,
    clean_name t -> execute null same admit_row (db_drop t) bind db = Some (Done (dbset db t None) []).
  Proof. intros t db bind Ht. unfold execute. now rewrite C67_reads_drop. Qed.
End Effect.

(** ** Creating tables *)

Lemma sqlite_type_clean dt ty : to_sqlite_datatype dt = Ok ty -> clean_name ty.
Proof.
  assert (Hall : forall l, In l [lit "TEXT"; lit "INTEGER"; lit "BOOLEAN"; lit "REAL"] -> clean_name l).
  { intros l Hl. cbn in Hl. repeat (destruct Hl as [<-|Hl]; [split; vm_compute; intuition discriminate|]). destruct Hl. }
  unfold to_sqlite_datatype. destruct dt as [d|]; [|intros E; apply Ok_inj in E; subst; apply Hall; cbn; auto].
  repeat match goal with |- context [if ?b then _ else _] =>
    destruct b; [intros E; apply Ok_inj in E; subst; apply Hall; cbn; auto 6|] end.
  discriminate.
Qed.

Lemma clean_app a b : clean_name a -> clean_name b -> clean_name (a ++ b).
Proof. intros [A1 A2] [B1 B2]. split; intros H; apply in_app_or in H as [H|H]; auto. Qed.
Lemma clean_join sep l : clean_name sep -> Forall clean_name l -> clean_name (join_with sep l).
Proof.
  intros Hs H. induction H as [|x l Hx HF IH]; [split; intros []|].
  destruct l as [|y l]; [exact Hx|].
  change (join_with sep (x :: y :: l)) with (x ++ sep ++ join_with sep (y :: l)).
  auto using clean_app.
Qed.

Lemma Lx_item_pk cs : Forall clean_name cs ->
  Lx (lit "PRIMARY KEY(" ++ join_with (lit ", ") (map bq cs) ++ lit ")") (item_toks (PrimaryKey cs)).
Proof.
  intros H. apply Lx0_app; [lx0|]. apply Lx_app; [now apply Lx_names | apply Lx0_Lx; lx0 | stp].
Qed.
Lemma Lx_item_fk c t c' : clean_name c -> clean_name t -> clean_name c' ->
  Lx (lit "FOREIGN KEY(" ++ bq c ++ lit ") REFERENCES " ++ bq t ++ lit "(" ++ bq c' ++ lit ")")
     (item_toks (ForeignKey c t c')).
Proof.
  intros H1 H2 H3.
  change (item_toks (ForeignKey c t c'))
    with ([TWord (lit "FOREIGN"); TWord (lit "KEY"); TSym 40] ++ [TName c]
          ++ [TSym 41; TWord (lit "REFERENCES")] ++ [TName t] ++ [TSym 40] ++ [TName c'] ++ [TSym 41]).
  apply Lx0_app; [lx0|]. apply Lx_app; [now apply Lx_bq| |stp].
  apply Lx0_app; [lx0|]. apply Lx_app; [now apply Lx_bq| |stp].
  apply Lx0_app; [lx0|]. apply Lx_app; [now apply Lx_bq|apply Lx0_Lx; lx0|stp].
Qed.
Lemma Lx_item_col c ty : clean_name c -> clean_name ty ->
  Lx (bq c ++ lit " " ++ bq ty) (item_toks (Column c ty)).
Proof.
  intros H1 H2. change (item_toks (Column c ty)) with ([TName c] ++ [] ++ [TName ty]).
  apply Lx_app; [now apply Lx_bq | apply Lx0_app; [lx0 | now apply Lx_bq] | stp].
Qed.

Lemma Lx_join2 sep tsep fs gs : Lx0 sep tsep -> stop sep -> sep <> [] -> Forall2 Lx fs gs ->
  Lx (join_with sep fs) (tjoin tsep gs).
Proof.
  intros H0 Hs Hne H. induction H as [|x g l gs Hx HF IH]; [intros r Hr; cbn; symmetry; apply oapp_nil|].
  destruct HF as [|y g' l gs' Hy HF]; [exact Hx|].
  change (join_with sep (x :: y :: l)) with (x ++ sep ++ join_with sep (y :: l)).
  change (tjoin tsep (g :: g' :: gs')) with (g ++ tsep ++ tjoin tsep (g' :: gs')).
  apply Lx_app; [auto | now apply Lx0_app |]. destruct sep; [congruence | exact Hs].
Qed.

Section Create.
  Context {V : Type} (null : V) (same : V -> V -> bool)
    (admit_row : str -> list (row V) -> row V -> option (row V)).

  Lemma columns_texts (dts : dict) cols ctexts :
    Forall clean_name cols -> (forall c, In c cols -> dts c <> None) ->
    mapM (fun c => match dts c with
                   | None => Ok c
                   | Some dt => rmap (fun ty => bq c ++ lit " " ++ bq ty) (to_sqlite_datatype dt)
                   end) cols = Ok ctexts ->
    exists is, Forall2 Lx ctexts (map item_toks is) /\ columns_of is = cols
      /\ Forall (fun i => match i with Column _ _ => True | _ => False end) is.
  Proof.
    intros Hc Hd. revert ctexts. induction Hc as [|c cols Hcc HF IH]; intros ctexts E.
    - apply Ok_inj in E. subst. exists []. repeat constructor.
    - cbn in E. destruct (dts c) as [dt|] eqn:Edt; [|now apply Hd in Edt; [|left]].
      destruct (to_sqlite_datatype dt) as [ty|] eqn:Ety; [|discriminate]. cbn in E.
      destruct (mapM _ cols) as [ct|] eqn:Ect; [|discriminate].
      apply Ok_inj in E. subst ctexts.
      destruct (IH (fun k Hk => Hd k (or_intror Hk)) ct eq_refl) as (is & H1 & H2 & H3).
      exists (Column c ty :: is). split; [|split].
      + cbn [map]. constructor; [|exact H1]. apply Lx_item_col; [auto | now apply sqlite_type_clean in Ety].
      + change (c :: columns_of is = c :: cols). now rewrite H2.
      + constructor; auto.
  Qed.

  Lemma columns_of_app a b : columns_of (a ++ b) = columns_of a ++ columns_of b.
  Proof. apply flat_map_app. Qed.

  (** The statements create the table with exactly the given columns, if there is no table
      with that name, and change nothing otherwise. *)
  Theorem C67_create : forall t cols (dts : dict) pk fk idxs texts (db : database V),
    db_create t cols dts pk fk idxs = Ok texts ->
    clean_name t -> Forall clean_name cols -> NoDup cols -> cols <> [] ->
    (forall c, In c cols -> dts c <> None) ->
    (forall k, In k pk -> In k cols) ->
    (forall c t' c', In (c, (t', c')) fk -> In c cols /\ clean_name t' /\ clean_name c') ->
    (forall i, In i idxs -> i <> [] /\ forall k, In k i -> In k cols) ->
    (db t = None ->
       execute_all null same admit_row texts db = Some (dbset db t (Some (Table cols []))))
    /\ (forall x, db t = Some x -> (forall c, In c cols -> In c (tcols x)) ->
       execute_all null same admit_row texts db = Some db).
  Proof.
    intros t cols dts pk fk idxs texts db E Ht Hc Hnd Hne Hd Hpk Hfk Hidx.
    unfold db_create in E.
    destruct (mapM _ cols) as [ct|] eqn:Ect; [|discriminate]. cbn [rmap] in E. apply Ok_inj in E. subst texts.
    destruct (columns_texts dts cols ct Hc Hd Ect) as (is & H1 & H2 & H3).
    set (pks := match pk with [] => [] | _ => [PrimaryKey pk] end).
    set (fks := map (fun '(c, (t', c')) => ForeignKey c t' c') fk).
    assert (Hcl : forall k, In k cols -> clean_name k) by (rewrite Forall_forall in Hc; exact Hc).
    assert (Hpkc : Forall clean_name pk) by (apply Forall_forall; auto).
    match goal with |- context [execute_all _ _ _ (?s :: ?r)] => set (s1 := s); set (rest := r) end.
    assert (Hread : read s1 = Some (CreateTable t (is ++ pks ++ fks))).
    { unfold read, s1. erewrite Lx_read.
      2: { apply Lx0_app with (t1 := [TWord (lit "CREATE"); TWord (lit "TABLE"); TWord (lit "IF"); TWord (lit "NOT"); TWord (lit "EXISTS")]); [lx0|].
           apply Lx_app; [now apply Lx_bq | | stp].
           apply Lx0_app with (t1 := [TSym 40]); [lx0|].
           apply Lx_app; [|apply Lx0_Lx with (ts := [TSym 41; TSym 59]); lx0 | stp].
           apply Lx_join2 with (gs := map item_toks (is ++ pks ++ fks)) (tsep := [TSym 44]);
             [apply Lx0_comma | apply stop_comma | discriminate|].
           rewrite !map_app. apply Forall2_app; [exact H1|]. apply Forall2_app.
           - unfold pks. destruct pk; [constructor|]. constructor; [|constructor]. now apply Lx_item_pk.
           - unfold fks. clear -Hfk Hcl. induction fk as [|(c, (t', c')) fk IH]; [constructor|].
             cbn [map]. constructor.
             + destruct (Hfk c t' c' (or_introl eq_refl)) as (Ha & Hb & Hc'). apply Lx_item_fk; auto.
             + apply IH. intros; apply Hfk; now right. }
      cbv beta iota. rewrite statement_create; [reflexivity | |].
      - destruct is; [cbn in H2; congruence | discriminate].
      - intros cs Hin. apply in_app_or in Hin as [Hin|Hin].
        + rewrite Forall_forall in H3. now apply H3 in Hin.
        + apply in_app_or in Hin as [Hin|Hin].
          * unfold pks in Hin. destruct pk; [destruct Hin|]. destruct Hin as [[= <-]|[]]. discriminate.
          * unfold fks in Hin. apply in_map_iff in Hin as ((c, (t', c')) & ? & _). discriminate. }
    assert (Hcols : columns_of (is ++ pks ++ fks) = cols).
    { rewrite !columns_of_app, H2.
      replace (columns_of pks) with (@nil str) by (unfold pks; now destruct pk).
      replace (columns_of fks) with (@nil str); [apply app_nil_r|].
      unfold fks. clear. induction fk as [|(c, (t', c')) fk IH]; [reflexivity|]. cbn. exact IH. }
    assert (Hrest : forall db' x, db' t = Some x -> (forall c, In c cols -> In c (tcols x)) ->
              execute_all null same admit_row rest db' = Some db').
    { intros db' x Hx Hcx. unfold rest. clear -Hx Hcx Hidx Ht Hcl.
      induction idxs as [|i idxs IH]; [reflexivity|]. cbn [map execute_all].
      destruct (Hidx i (or_introl eq_refl)) as [Hi Hik].
      assert (Hic : Forall clean_name i) by (apply Forall_forall; auto).
      unfold execute, read. erewrite Lx_read.
      2: { apply Lx0_app with (t1 := [TWord (lit "CREATE"); TWord (lit "INDEX"); TWord (lit "IF"); TWord (lit "NOT"); TWord (lit "EXISTS")]); [lx0|].
           apply Lx_app; [apply Lx_bq | | stp].
           - apply clean_app; [split; vm_compute; intuition discriminate|]. apply clean_app; [auto|].
             apply clean_app; [split; vm_compute; intuition discriminate|].
             apply clean_join; [split; vm_compute; intuition discriminate | auto].
           - apply Lx0_app with (t1 := [TWord (lit "ON")]); [lx0|].
             apply Lx_app; [now apply Lx_bq | | stp].
             apply Lx0_app with (t1 := [TSym 40]); [lx0|].
             apply Lx_app; [now apply Lx_names | apply Lx0_Lx with (ts := [TSym 41]); lx0 | stp]. }
      cbv beta iota. rewrite statement_index by auto. cbv beta iota. unfold run. rewrite Hx.
      replace (forallb _ i) with true.
      2: { symmetry. apply forallb_forall. intros k Hk. apply in_list_iff. auto. }
      apply IH. intros j Hj. apply Hidx. now right. }
    cbn [execute_all]. unfold execute. rewrite Hread. unfold run. rewrite Hcols. split.
    - intros Hx. rewrite Hx. rewrite (proj2 (distinct_iff cols) Hnd).
      replace (forallb _ _) with true.
      2: { symmetry. rewrite !forallb_app, !andb_true_iff. split; [|split].
           - apply forallb_forall. intros j Hj. rewrite Forall_forall in H3. specialize (H3 j Hj). now destruct j.
           - apply forallb_forall. intros j Hj.
             assert (j = PrimaryKey pk) as -> by (unfold pks in Hj; destruct pk; [destruct Hj | now destruct Hj as [<-|[]]]).
             cbn [item_ok]. apply forallb_forall. intros z Hz. apply in_list_iff. auto.
           - unfold fks. apply forallb_forall. intros j Hj. apply in_map_iff in Hj as ((c, (t', c')) & <- & Hin).
             cbn. apply in_list_iff. now apply Hfk in Hin. }
      cbn [andb]. apply (Hrest _ (Table cols [])); [|auto]. unfold dbset. now rewrite str_eqb_refl.
    - intros x Hx Hcx. rewrite Hx. now apply (Hrest db x).
  Qed.
End Create.

(** ** Building queries *)

(** [where] adds its condition to the ones already there, in every enumeration of the
    sets of conditions; calls of [where] commute. *)
Theorem C67_where : forall {A} as_set (q : query A) c same e,
  (forall l x, In x (as_set l) <-> In x l) ->
  q_parts (q_where as_set q c) = q_parts q
  /\ meets_opt same e (q_cond (q_where as_set q c)) = meets_opt same e (q_cond q) && meets_opt same e c.
Proof.
  intros A as_set q c same e Has. destruct c as [c|]; [|split; [reflexivity | symmetry; apply andb_true_r]].
  split; [reflexivity|]. cbn [q_cond q_where meets_opt].
  assert (Hs : forall l, forallb (meets same e) (as_set l) = forallb (meets same e) l).
  { intros l. apply eq_true_iff_eq. rewrite !forallb_forall. split; intros H x Hx; apply H; now apply Has. }
  destruct (q_cond q) as [[t1 c1 v1 d1|t1 c1 t2 c2|l]|]; [| | |reflexivity];
    destruct c as [t3 c3 v3 d3|t3 c3 t4 c4|l']; cbn [meets_opt meets]; rewrite Hs, ?forallb_app;
    cbn [forallb meets]; rewrite ?andb_true_r; try reflexivity; apply andb_comm.
Qed.

(** [join] adds a table under a new alias (its own name unless another is given). *)
Theorem C67_join : forall {A} (q : query A) t cs a,
  let alias := match a with Some (x :: y) => x :: y | _ => t end in
  match q_join q t cs a with
  | Ok q' => ~ In alias (map (fun '(a, _, _) => a) (q_parts q))
             /\ q_parts q' = q_parts q ++ [(alias, t, cs)]
             /\ q_columns q' = q_columns q ++ map (fun c => (alias, c)) cs
             /\ q_cond q' = q_cond q
  | Err e => e = ValueError /\ In alias (map (fun '(a, _, _) => a) (q_parts q))
  end.
Proof.
  intros A q t cs a alias.
  assert (Ha : alias_or a t = alias) by (destruct a as [[|]|]; reflexivity).
  unfold q_join. rewrite Ha. destruct (existsb _ _) eqn:Ex.
  - split; [reflexivity|]. apply existsb_exists in Ex as (((a', t'), cs') & Hin & E).
    apply str_eqb_eq in E. subst a'. apply in_map_iff. exists (alias, t', cs'). auto.
  - split; [|split; [reflexivity|split; [|reflexivity]]].
    + intros Hin. apply in_map_iff in Hin as (((a', t'), cs') & E & Hin).
      assert (existsb (fun '(a', _, _) => str_eqb alias a') (q_parts q) = true); [|congruence].
      apply existsb_exists. exists (a', t', cs'). split; [auto|]. subst a'. apply str_eqb_refl.
    + unfold q_columns. cbn [q_parts]. rewrite flat_map_app. cbn. now rewrite app_nil_r.
Qed.

(** The row written by INSERT and UPDATE: the i-th value in the i-th column, the other
    columns as before. *)
Theorem C67_row_written : forall {V} cols (vals : list V) old,
  NoDup cols ->
  (forall i c v, nth_error cols i = Some c -> nth_error vals i = Some v -> set_columns cols vals old c = v)
  /\ (forall c, ~ In c cols -> set_columns cols vals old c = old c).
Proof.
  intros V cols vals old Hn. split.
  - revert vals. induction Hn as [|x cols Hx Hn IH]; intros vals i c v Hi Hv; [destruct i; discriminate|].
    destruct vals as [|w vals]; [destruct i; discriminate|]. destruct i as [|i]; cbn in Hi, Hv |- *.
    + injection Hi as ->. injection Hv as ->. now rewrite str_eqb_refl.
    + rewrite (proj2 (str_eqb_neq c x)); [eauto|]. intros ->. apply Hx. now apply nth_error_In in Hi.
  - clear Hn. revert vals. induction cols as [|x cols IH]; intros vals c Hc; [reflexivity|].
    destruct vals as [|w vals]; [reflexivity|]. cbn. rewrite (proj2 (str_eqb_neq c x)).
    + apply IH. intros H. apply Hc. now right.
    + intros ->. apply Hc. now left.
Qed.

(** ** Refuted without the restriction on names *)

(** A table name with a backquote passes [check_characters] and turns the deletion of one
    row into the deletion of all rows of another table. *)
Definition evil : str := lit "OSP_V1_CUDS` WHERE 1 --".
Definition evil_cond : option (cond Z) := Some (CEq evil (lit "uid") (Leaf 1%Z) (Some (XSD ++ lit "integer"))).
Theorem C67_backquote_refuted :
  check_characters [OStr evil; OEq evil (lit "uid") (OStr (XSD ++ lit "integer"))] = Ok tt
  /\ read (fst (db_delete evil evil_cond)) = Some (Delete (lit "OSP_V1_CUDS") [Always])
  /\ (forall (db : database (nd Z)) x same admit_row,
        db (lit "OSP_V1_CUDS") = Some x ->
        execute (Leaf 0%Z) same admit_row (fst (db_delete evil evil_cond)) (plookup (snd (db_delete evil evil_cond))) db
        = Some (Done (dbset db (lit "OSP_V1_CUDS") (Some (Table (tcols x) []))) [])).
Proof.
  assert (Hr : read (fst (db_delete evil evil_cond)) = Some (Delete (lit "OSP_V1_CUDS") [Always]))
    by (vm_compute; reflexivity).
  split; [vm_compute; reflexivity|]. split; [exact Hr|].
  intros db x same admit_row Hx. unfold execute. rewrite Hr. unfold run. rewrite Hx. cbn [forallb well_scoped].
  f_equal. f_equal. f_equal. f_equal. f_equal. induction (trows x); [reflexivity|]. cbn [filter]. exact IHl.
Qed.

(** A query without columns is not valid SQL. *)
Theorem C67_no_columns_refuted : forall t, clean_name t -> read (fst (db_select (q_new (A:=Z) t [] None))) = None.
Proof.
  intros t Ht. unfold read. erewrite Lx_read.
  2: { cbn [fst db_select q_new q_columns q_parts flat_map map join_with app].
       apply Lx0_app with (t1 := [TWord (lit "SELECT")]); [lx0|].
       apply Lx0_app with (t1 := [TWord (lit "FROM")]); [lx0|].
       apply Lx_app; [|apply Lx_where; constructor | stp].
       apply Lx_app; [apply Lx_bq; auto | apply Lx0_app with (t1 := [TWord (lit "AS")]); [lx0|] | stp].
       apply Lx_bq; exact Ht. }
  reflexivity.
Qed.

(** ** Examples *)

Section Example.
  Let dts : dict := fun k => if str_eqb k (lit "v") then Some (Some (XSD ++ lit "float"))
                             else Some (Some (XSD ++ lit "integer")).
  Let ex_q : res (query Z) :=
    rmap (fun q => q_where (fun l => l) (q_where (fun l => l) q
              (Some (CJoin (lit "a b") (lit "o") (lit "T2") (lit "id"))))
              (Some (CEq (lit "T2") (lit "v") (Leaf 7%Z) None)))
      (q_join (q_new (lit "T1") [lit "s"; lit "o"] (Some (lit "a b"))) (lit "T2") [lit "v"] None).

  (** The text of a query, and what is read. *)
  Example C67_select_text : forall q, ex_q = Ok q ->
    fst (db_select q) = lit "SELECT `a b`.`s`, `a b`.`o`, `T2`.`v` FROM `T1` AS `a b`, `T2` AS `T2` WHERE `a b`.`o` = `T2`.`id` AND `T2`.`v`=:cond1_value;"
    /\ read (fst (db_select q)) = Some (Select
         [(lit "a b", lit "s"); (lit "a b", lit "o"); (lit "T2", lit "v")]
         [(lit "T1", lit "a b"); (lit "T2", lit "T2")]
         [EqCol (lit "a b") (lit "o") (lit "T2") (lit "id"); EqParam (lit "T2") (lit "v") (lit "cond1_value")]).
  Proof. intros q E. apply Ok_inj in E. subst q. split; vm_compute; reflexivity. Qed.

  (** Its answer on a small database. *)
  Let mkrow (l : list (str * Z)) : row (nd Z) :=
    fun c => match find (fun '(k, _) => str_eqb k c) l with Some (_, z) => Leaf z | None => Leaf 0%Z end.
  Let ex_db : database (nd Z) := fun t =>
    if str_eqb t (lit "T1") then
      Some (Table [lit "s"; lit "o"] [mkrow [(lit "s", 1); (lit "o", 10)]%Z; mkrow [(lit "s", 2); (lit "o", 11)]%Z;
                                      mkrow [(lit "s", 3); (lit "o", 10)]%Z])
    else if str_eqb t (lit "T2") then
      Some (Table [lit "id"; lit "v"] [mkrow [(lit "id", 10); (lit "v", 7)]%Z; mkrow [(lit "id", 11); (lit "v", 8)]%Z])
    else None.
  Let ex_same (x y : nd Z) : bool := match x, y with Leaf a, Leaf b => Z.eqb a b | _, _ => false end.

  Example C67_select_example : forall q, ex_q = Ok q ->
    built (fun l => l) q /\ Forall clean_name (query_names q) /\ q_columns q <> [] /\ query_fits q ex_db
    /\ opt_narrow (q_cond q)
    /\ query_answer (Leaf 0%Z) ex_same q ex_db
       = [[Leaf 1; Leaf 10; Leaf 7]; [Leaf 3; Leaf 10; Leaf 7]]%Z.
  Proof.
    intros q E. split; [|split; [|split; [|split; [|split]]]].
    - unfold ex_q in E.
      destruct (q_join _ _ _ _) as [q0|] eqn:Ej; [|discriminate]. apply Ok_inj in E. subst q.
      repeat apply b_where. eapply b_join; [apply b_new | exact Ej].
    - apply Ok_inj in E. subst q. repeat (constructor; [split; vm_compute; intuition discriminate|]). constructor.
    - apply Ok_inj in E. subst q. discriminate.
    - apply Ok_inj in E. subst q. split.
      + intros a t cs Hin. cbn in Hin. destruct Hin as [[= <- <- <-]|[[= <- <- <-]|[]]];
          (eexists; split; [reflexivity|]; intros c Hc; cbn in Hc |- *; tauto).
      + intros a c Hin. cbn in Hin. destruct Hin as [[= <- <-]|[[= <- <-]|[[= <- <-]|[]]]].
        * eexists _, _, _. split; [left; reflexivity|]. split; [reflexivity | cbn; tauto].
        * eexists _, _, _. split; [right; left; reflexivity|]. split; [reflexivity | cbn; tauto].
        * eexists _, _, _. split; [right; left; reflexivity|]. split; [reflexivity | cbn; tauto].
    - apply Ok_inj in E. subst q. cbn. repeat split; auto; left; lia.
    - apply Ok_inj in E. subst q. vm_compute. reflexivity.
  Qed.

  Example C67_create_example :
    db_create (lit "DATA_V1_X") [lit "s"; lit "v"] dts [lit "s"] [(lit "s", (lit "OSP_V1_CUDS", lit "cuds_idx"))]
              [[lit "s"; lit "v"]]
    = Ok [lit "CREATE TABLE IF NOT EXISTS `DATA_V1_X` (`s` `INTEGER`, `v` `REAL`, PRIMARY KEY(`s`), FOREIGN KEY(`s`) REFERENCES `OSP_V1_CUDS`(`cuds_idx`));";
          lit "CREATE INDEX IF NOT EXISTS `idx_DATA_V1_X_s_v` ON `DATA_V1_X`(`s`, `v`)"].
  Proof. vm_compute. reflexivity. Qed.
  Example C67_update_text :
    fst (db_update (lit "T") [lit "a"; lit "b"] [Leaf 1; Leaf 2]%Z None)
    = lit "UPDATE `T` SET `a` = :val_0, `b` = :val_1 WHERE 1;"
    /\ fst (db_insert (lit "T") [lit "a"; lit "b"] [Leaf 1; Leaf 2]%Z)
    = lit "INSERT INTO `T` (`a`, `b`) VALUES (:val_0, :val_1);"
    /\ fst (db_delete (lit "T") (Some (CEq (lit "T") (lit "a") (Leaf 1%Z) None)))
    = lit "DELETE FROM `T` WHERE `T`.`a`=:cond_value;".
  Proof. repeat split; vm_compute; reflexivity. Qed.
End Example.

Print Assumptions C67_reads_select.
Print Assumptions C67_reads_delete.
Print Assumptions C67_reads_insert.
Print Assumptions C67_reads_update.
Print Assumptions C67_reads_drop.
Print Assumptions C67_select.
Print Assumptions C67_delete.
Print Assumptions C67_insert.
Print Assumptions C67_update.
Print Assumptions C67_drop.
Print Assumptions C67_create.
Print Assumptions C67_where.
Print Assumptions C67_join.
Print Assumptions C67_row_written.
Print Assumptions C67_backquote_refuted.
Print Assumptions C67_no_columns_refuted.
