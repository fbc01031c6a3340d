(** Property C69: the SQL statements for triple patterns select, add and delete exactly the
    intended triples; the tables are created with the columns they use. *)
From Coq Require Import String List NArith ZArith Lia Bool.
From Verif Require Import Prelude Utf8 Text Datatype SqlUtil PropSqlUtil SqlRead SqlText SqlTextProofs PropSqlText SqlTriple.
Import ListNotations.
Local Open Scope nat_scope.
Local Open Scope list_scope.

(** ** Specification *)

Section Spec.
  Context {V : Type} (same : V -> V -> bool).
  Notation row := (row V).
  Notation database := (database V).

  (** Which triples the tables hold: subject (uid), predicate or class (namespace index and
      name), object (uid or values).  [same] is the comparison of the database. *)
  Definition stored_rel (db : database) (s ns nm o : V) : Prop :=
    exists c e c' r : row,
      In c (rows_of db (lit "OSP_V1_CUDS")) /\ In e (rows_of db (lit "OSP_V1_ENTITIES"))
      /\ In c' (rows_of db (lit "OSP_V1_CUDS")) /\ In r (rows_of db (lit "OSP_V1_RELATIONS"))
      /\ same (r (lit "s")) (c (lit "cuds_idx")) = true
      /\ same (r (lit "p")) (e (lit "entity_idx")) = true
      /\ same (r (lit "o")) (c' (lit "cuds_idx")) = true
      /\ s = c (lit "uid") /\ ns = e (lit "ns_idx") /\ nm = e (lit "name") /\ o = c' (lit "uid").
  Definition stored_type (db : database) (s ns nm : V) : Prop :=
    exists c e r : row,
      In c (rows_of db (lit "OSP_V1_CUDS")) /\ In e (rows_of db (lit "OSP_V1_ENTITIES"))
      /\ In r (rows_of db (lit "OSP_V1_TYPES"))
      /\ same (r (lit "s")) (c (lit "cuds_idx")) = true
      /\ same (r (lit "o")) (e (lit "entity_idx")) = true
      /\ s = c (lit "uid") /\ ns = e (lit "ns_idx") /\ nm = e (lit "name").
  (** In the data table [t], whose objects are in the columns [ocols]. *)
  Definition stored_data (db : database) (t : str) (ocols : list str) (s ns nm : V) (os : list V) : Prop :=
    exists c e r : row,
      In c (rows_of db (lit "OSP_V1_CUDS")) /\ In e (rows_of db (lit "OSP_V1_ENTITIES"))
      /\ In r (rows_of db t)
      /\ same (r (lit "s")) (c (lit "cuds_idx")) = true
      /\ same (r (lit "p")) (e (lit "entity_idx")) = true
      /\ s = c (lit "uid") /\ ns = e (lit "ns_idx") /\ nm = e (lit "name") /\ os = map r ocols.

  (** A component of a pattern: None is a wildcard. *)
  Definition fits_one (p : option V) (v : V) : Prop := forall w, p = Some w -> same v w = true.
  Definition fits_two (p : option (V * V)) (v1 v2 : V) : Prop :=
    forall w1 w2, p = Some (w1, w2) -> same v1 w1 = true /\ same v2 w2 = true.
  Definition fits_all (p : option (list V)) (vs : list V) : Prop :=
    forall ws, p = Some ws -> Forall2 (fun v w => same v w = true) vs ws.

  (** The known CUDS objects and entities; the indexes under which they are stored. *)
  Definition known_cuds (db : database) (u : V) : Prop :=
    exists c : row, In c (rows_of db (lit "OSP_V1_CUDS")) /\ u = c (lit "uid").
  Definition known_entity (db : database) (ns nm : V) : Prop :=
    exists e : row, In e (rows_of db (lit "OSP_V1_ENTITIES")) /\ ns = e (lit "ns_idx") /\ nm = e (lit "name").
  Definition cuds_index (db : database) (u i : V) : Prop :=
    exists c : row, In c (rows_of db (lit "OSP_V1_CUDS"))
      /\ same (c (lit "uid")) u = true /\ same (c (lit "cuds_idx")) i = true.
  Definition entity_index (db : database) (ns nm i : V) : Prop :=
    exists e : row, In e (rows_of db (lit "OSP_V1_ENTITIES"))
      /\ same (e (lit "ns_idx")) ns = true /\ same (e (lit "name")) nm = true
      /\ same (e (lit "entity_idx")) i = true.
  (** The comparison of the database (NULL need not equal itself). *)
  Definition comparison : Prop :=
    (forall x y, same x y = true -> same y x = true)
    /\ (forall x y z, same x y = true -> same y z = true -> same x z = true).
  (** One index per uid, and per namespace index and name. *)
  Definition unique_keys (db : database) : Prop :=
    (forall c c' : row, In c (rows_of db (lit "OSP_V1_CUDS")) -> In c' (rows_of db (lit "OSP_V1_CUDS")) ->
       (same (c (lit "uid")) (c' (lit "uid")) = true <-> same (c (lit "cuds_idx")) (c' (lit "cuds_idx")) = true))
    /\ (forall e e' : row, In e (rows_of db (lit "OSP_V1_ENTITIES")) -> In e' (rows_of db (lit "OSP_V1_ENTITIES")) ->
       (same (e (lit "ns_idx")) (e' (lit "ns_idx")) = true /\ same (e (lit "name")) (e' (lit "name")) = true
        <-> same (e (lit "entity_idx")) (e' (lit "entity_idx")) = true)).
  (** The columns of [t] that are indexes refer to rows of the table of CUDS objects
      (resp. entities). *)
  Definition refers (db : database) (t : str) (ks : list (str * (str * str))) : Prop :=
    forall r k t' i, In r (rows_of db t) -> In (k, (t', i)) ks ->
      exists c, In c (rows_of db t') /\ same (r k) (c i) = true.
  Definition rel_refs : list (str * (str * str)) :=
    [(lit "s", (lit "OSP_V1_CUDS", lit "cuds_idx")); (lit "p", (lit "OSP_V1_ENTITIES", lit "entity_idx"));
     (lit "o", (lit "OSP_V1_CUDS", lit "cuds_idx"))].
  Definition type_refs : list (str * (str * str)) :=
    [(lit "s", (lit "OSP_V1_CUDS", lit "cuds_idx")); (lit "o", (lit "OSP_V1_ENTITIES", lit "entity_idx"))].
  Definition data_refs : list (str * (str * str)) :=
    [(lit "s", (lit "OSP_V1_CUDS", lit "cuds_idx")); (lit "p", (lit "OSP_V1_ENTITIES", lit "entity_idx"))].
  (** The same triples. *)
  Definition same_triples (db db' : database) : Prop :=
    (refers db (lit "OSP_V1_RELATIONS") rel_refs ->
       refers db' (lit "OSP_V1_RELATIONS") rel_refs
       /\ forall s ns nm o, stored_rel db' s ns nm o <-> stored_rel db s ns nm o)
    /\ (refers db (lit "OSP_V1_TYPES") type_refs ->
       refers db' (lit "OSP_V1_TYPES") type_refs
       /\ forall s ns nm, stored_type db' s ns nm <-> stored_type db s ns nm)
    /\ (forall t ocols, startswith DATA_TABLE_PREFIX t = true -> refers db t data_refs ->
       refers db' t data_refs
       /\ forall s ns nm os, stored_data db' t ocols s ns nm os <-> stored_data db t ocols s ns nm os).

  (** The indexes of the components of a pattern. *)
  Definition cuds_indexes (db : database) (p i : option V) : Prop :=
    match p, i with
    | Some u, Some k => cuds_index db u k
    | None, None => True
    | _, _ => False
    end.
  Definition entity_indexes (db : database) (p : option (V * V)) (i : option V) : Prop :=
    match p, i with
    | Some (ns, nm), Some k => entity_index db ns nm k
    | None, None => True
    | _, _ => False
    end.

  (** The table exists and has these columns (among others). *)
  Definition has_table (db : database) (t : str) (cols : list str) : Prop :=
    exists x, db t = Some x /\ forall c, In c cols -> In c (tcols x).
  Definition shape (db : database) : Prop :=
    has_table db (lit "OSP_V1_CUDS") [lit "cuds_idx"; lit "uid"]
    /\ has_table db (lit "OSP_V1_ENTITIES") [lit "entity_idx"; lit "ns_idx"; lit "name"]
    /\ has_table db (lit "OSP_V1_NAMESPACES") [lit "ns_idx"; lit "namespace"]
    /\ has_table db (lit "OSP_V1_TYPES") [lit "s"; lit "o"]
    /\ has_table db (lit "OSP_V1_RELATIONS") [lit "s"; lit "p"; lit "o"].
End Spec.

(** The iteration order of a set. *)
Definition set_order {X} (as_set : list X -> list X) : Prop :=
  (forall l x, In x (as_set l) <-> In x l) /\ (forall l, List.length (as_set l) <= List.length l).

(** ** Facts *)
Lemma expanded_cols_form dt ocols edt : get_expanded_cols (lit "o") (Some dt) = Ok (ocols, edt) ->
  (forall c, In c ocols -> c = lit "o" \/ exists i, c = vec_col (lit "o") i) /\ NoDup ocols
  /\ (is_vector (Some dt) = false -> ocols = [lit "o"]).
Proof.
  unfold get_expanded_cols, is_vector. destruct (startswith VEC_PREFIX dt).
  - destruct (parse_vector_args _) as [(b, [|n sh])|]; [discriminate| |discriminate].
    intros E. injection E as <- <-. split; [|split; [|discriminate]].
    + intros c Hc. apply in_map_iff in Hc as (i & <- & _). eauto.
    + unfold range. rewrite map_map. apply FinFun.Injective_map_NoDup; [|apply seq_NoDup].
      intros a b' E. unfold vec_col in E. do 2 apply app_inv_head in E. apply dec_inj in E. lia.
  - intros E. injection E as <- <-. split; [|split; [|reflexivity]].
    + intros c [<-|[]]. auto.
    + constructor; [intros []|constructor].
Qed.
Lemma clean_dec i : clean_name (dec i).
Proof.
  assert (H : forall n, (n = 96 \/ n = 0)%N -> ~ In n (dec i)).
  { intros n Hn Hin. pose proof (digit_not n i) as Hd. apply Hd in Hin; [exact Hin|]. destruct Hn as [-> | ->]; reflexivity. }
  split; apply H; auto.
Qed.
Ltac cln := split; vm_compute; intuition discriminate.
Ltac clean_all := repeat first [apply Forall_nil | apply Forall_cons; [cln|]].
Ltac names_all := repeat first [apply Forall_nil | apply Forall_cons; [cbn [cond_names]; clean_all|]].
Lemma expanded_cols_clean dt ocols edt : get_expanded_cols (lit "o") (Some dt) = Ok (ocols, edt) ->
  Forall clean_name ocols /\ ~ In (lit "s") ocols /\ ~ In (lit "p") ocols.
Proof.
  intros E. destruct (expanded_cols_form _ _ _ E) as [H _]. split; [|split].
  - apply Forall_forall. intros c Hc. destruct (H c Hc) as [-> |[i ->]]; [cln|].
    unfold vec_col. apply clean_app; [cln|]. apply clean_app; [cln | apply clean_dec].
  - intros Hc. destruct (H _ Hc) as [Hx|[i Hx]]; [discriminate Hx|]. discriminate Hx.
  - intros Hc. destruct (H _ Hc) as [Hx|[i Hx]]; discriminate Hx.
Qed.

Section Statements.
  Context {A : Type} (null : nd A) (same : nd A -> nd A -> bool)
    (admit_row : str -> list (row (nd A)) -> row (nd A) -> option (row (nd A)))
    (as_set : list (cond A) -> list (cond A)) (Has : set_order as_set).
  Notation V := (nd A).
  Notation execute := (execute null same admit_row).

  Lemma in_product a rows rest (e : env V) : In e (product null ((a, rows) :: rest)) <->
    exists x e', In x rows /\ In e' (product null rest) /\ e = bind_row a x e'.
  Proof.
    cbn [product]. rewrite in_flat_map. split.
    - intros (x & Hx & He). apply in_map_iff in He as (e' & <- & He'). eauto.
    - intros (x & e' & Hx & He & ->). exists x. split; [auto|]. apply in_map_iff. eauto.
  Qed.

  (** One member of a conjunction: a comparison or a conjunction of comparisons. *)
  Definition flat (x : cond A) : Prop := match x with CAnd l => Forall (fun y => is_and y = false) l | _ => True end.
  Lemma flat_narrow x : flat x -> narrow x.
  Proof.
    destruct x as [| |l]; intros H; [exact I..|]. apply narrow_and. split; [now right|].
    eapply Forall_impl; [|exact H]. intros [| |]; [intros; exact I..|discriminate].
  Qed.

  (** A conjunction whose members are those of [members]. *)
  Definition conj_of (x : option (cond A)) (members : list (cond A)) : Prop :=
    exists l, x = Some (CAnd l) /\ (forall y, In y l <-> In y members) /\ List.length l <= List.length members.

  Lemma conj_meets x members e : conj_of x members ->
    (meets_opt same e x = true <-> forall m, In m members -> meets same e m = true).
  Proof. intros (l & -> & Hl & _). cbn. rewrite forallb_forall. setoid_rewrite Hl. reflexivity. Qed.
  Lemma conj_narrow x members : conj_of x members -> List.length members <= 10 -> Forall flat members -> opt_narrow x.
  Proof.
    intros (l & -> & Hl & Hn) Hm Hf. cbn [opt_narrow]. apply narrow_and. split; [left; lia|].
    apply Forall_forall. intros y Hy. apply flat_narrow. rewrite Forall_forall in Hf. apply Hf. now apply Hl.
  Qed.
  Lemma conj_names x members : conj_of x members -> Forall (fun m => Forall clean_name (cond_names m)) members ->
    Forall clean_name (opt_names x).
  Proof.
    intros (l & -> & Hl & _) Hm. cbn. apply Forall_forall. intros s Hs. apply in_flat_map in Hs as (y & Hy & Hs).
    rewrite Forall_forall in Hm. apply Hl in Hy. specialize (Hm y Hy). rewrite Forall_forall in Hm. auto.
  Qed.
  Lemma conj_cols x members a c : conj_of x members -> In (a, c) (opt_cols x) ->
    exists m, In m members /\ In (a, c) (cond_cols m).
  Proof.
    intros (l & -> & Hl & _) H. cbn in H. apply in_flat_map in H as (y & Hy & H). apply Hl in Hy. eauto.
  Qed.

  (** A query over such a conjunction. *)
  Lemma run_query (q : query A) parts members (db : database V) :
    built as_set q -> q_parts q = parts -> conj_of (q_cond q) members ->
    List.length members <= 10 -> Forall flat members ->
    Forall clean_name (flat_map (fun '(a, t, cs) => a :: t :: cs) parts) ->
    Forall (fun m => Forall clean_name (cond_names m)) members ->
    q_columns q <> [] ->
    (forall a t cs, In (a, t, cs) parts -> exists x, db t = Some x /\ (forall c, In c cs -> In c (tcols x))) ->
    (forall m a c, In m members -> In (a, c) (cond_cols m) ->
       exists t cs x, In (a, t, cs) parts /\ db t = Some x /\ In c (tcols x)) ->
    exists rows, execute (fst (db_select q)) (plookup (snd (db_select q))) db = Some (Done db rows)
      /\ forall x, In x rows <-> exists e,
           In e (product null (map (fun '(a, t, _) => (a, rows_of db t)) parts))
           /\ (forall m, In m members -> meets same e m = true)
           /\ x = map (fun '(a, c) => e a c) (q_columns q).
  Proof.
    intros Hb Hp Hc Hl Hf Hn1 Hn2 Hq Hf1 Hf2. subst parts. eexists. split.
    - apply (C67_select null same admit_row as_set); [exact Hb | | exact Hq | split | ].
      + unfold query_names. apply Forall_app. split; [exact Hn1|]. eapply conj_names; eauto.
      + exact Hf1.
      + intros a c Hac. destruct (conj_cols _ _ _ _ Hc Hac) as (m & Hm & Hin). eauto.
      + eapply conj_narrow; eauto.
    - intros x. unfold query_answer. rewrite in_map_iff. split.
      + intros (e & <- & He). apply filter_In in He as [He Hm]. exists e. split; [auto|]. split; [|reflexivity].
        now apply (conj_meets _ _ _ Hc).
      + intros (e & He & Hm & ->). exists e. split; [reflexivity|]. apply filter_In. split; [auto|].
        now apply (conj_meets _ _ _ Hc).
  Qed.

  Lemma as_set_in l x : In x (as_set l) <-> In x l.
  Proof. apply Has. Qed.
  Lemma as_set_len l : List.length (as_set l) <= List.length l.
  Proof. apply Has. Qed.
  Lemma conj_add x members l : conj_of x members ->
    conj_of (q_cond (q_where as_set (Query [] x) (Some (CAnd (as_set l))))) (members ++ l).
  Proof.
    intros (l0 & -> & Hl & Hn). cbn. eexists. split; [reflexivity|]. split.
    - intros y. rewrite as_set_in, !in_app_iff, as_set_in, Hl. reflexivity.
    - pose proof (as_set_len (l0 ++ as_set l)). pose proof (as_set_len l). rewrite app_length in *. lia.
  Qed.
  Lemma conj_add1 x members y : conj_of x members -> is_and y = false ->
    conj_of (q_cond (q_where as_set (Query [] x) (Some y))) (members ++ [y]).
  Proof.
    intros (l0 & -> & Hl & Hn) Hy. destruct y as [t c v dt|t1 c1 t2 c2|]; [| |discriminate]; cbn; (eexists; split; [reflexivity|]; split;
      [intros z; rewrite as_set_in, !in_app_iff, Hl; reflexivity
      |match goal with |- List.length (as_set ?l) <= _ => pose proof (as_set_len l) end; rewrite app_length in *; cbn in *; lia]).
  Qed.
  Lemma conj_two y1 y2 : is_and y1 = false -> is_and y2 = false ->
    conj_of (q_cond (q_where as_set (Query [] (Some y1)) (Some y2))) [y1; y2].
  Proof.
    intros H1 H2. destruct y1; [| |discriminate]; (destruct y2; [| |discriminate]); cbn; (eexists; split; [reflexivity|]; split;
      [intros z; rewrite as_set_in; reflexivity
      |match goal with |- List.length (as_set ?l) <= _ => exact (as_set_len l) end]).
  Qed.

  Lemma names_one t c v dt : clean_name t -> clean_name c -> Forall clean_name (cond_names (CEq (A:=A) t c v dt)).
  Proof. intros H1 H2. repeat constructor; apply H1 || apply H2. Qed.

  Lemma join_ok (q : query A) t cs a :
    existsb (fun '(a', _, _) => str_eqb (alias_or a t) a') (q_parts q) = false ->
    q_join q t cs a = Ok (Query (q_parts q ++ [(alias_or a t, t, cs)]) (q_cond q)).
  Proof. intros H. unfold q_join. now rewrite H. Qed.
  Lemma built_join (q : query A) t cs a : built as_set q ->
    existsb (fun '(a', _, _) => str_eqb (alias_or a t) a') (q_parts q) = false ->
    built as_set (Query (q_parts q ++ [(alias_or a t, t, cs)]) (q_cond q)).
  Proof. intros Hb H. eapply b_join; [exact Hb | now apply join_ok]. Qed.
  Lemma bind_same a (x : row V) e c : bind_row a x e a c = x c.
  Proof. unfold bind_row. now rewrite str_eqb_refl. Qed.
  Lemma bind_other a a' (x : row V) e c : str_eqb a' a = false -> bind_row a x e a' c = e a' c.
  Proof. intros H. unfold bind_row. now rewrite H. Qed.
  Lemma meets_app e (l1 l2 : list (cond A)) :
    (forall m, In m (l1 ++ l2) -> meets same e m = true) <->
    (forall m, In m l1 -> meets same e m = true) /\ (forall m, In m l2 -> meets same e m = true).
  Proof.
    split.
    - intros H. split; intros m Hm; apply H, in_or_app; auto.
    - intros [H1 H2] m Hm. apply in_app_or in Hm as [Hm|Hm]; auto.
  Qed.
  Lemma meets_cons e (x : cond A) l :
    (forall m, In m (x :: l) -> meets same e m = true) <->
    meets same e x = true /\ (forall m, In m l -> meets same e m = true).
  Proof.
    split.
    - intros H. split; [apply H; now left|]. intros m Hm. apply H. now right.
    - intros [H1 H2] m [<-|Hm]; auto.
  Qed.
  Lemma meets_nil e : (forall m : cond A, In m [] -> meets same e m = true) <-> True.
  Proof. split; [auto | intros _ m []]. Qed.

  Definition s_conds (s : option V) : list (cond A) :=
    match s with Some uid => [CEq (lit "ts") (lit "uid") uid (Some (lit "UUID"))] | None => [] end.
  Definition p_conds (p : option (V * V)) : list (cond A) :=
    match p with
    | Some (ns_idx, name) => [CEq (lit "tp") (lit "ns_idx") ns_idx (Some XSD_integer);
                              CEq (lit "tp") (lit "name") name (Some XSD_string)]
    | None => []
    end.
  Definition c_conds (o : option V) : list (cond A) :=
    match o with Some uid => [CEq (lit "to") (lit "uid") uid (Some (lit "UUID"))] | None => [] end.
  Definition t_conds (o : option (V * V)) : list (cond A) :=
    match o with
    | Some (ns_idx, name) => [CEq (lit "to") (lit "ns_idx") ns_idx (Some XSD_integer);
                              CEq (lit "to") (lit "name") name (Some XSD_string)]
    | None => []
    end.
  Lemma one_meets (e : env V) s : (forall m, In m (s_conds s) -> meets same e m = true) <-> fits_one same s (e (lit "ts") (lit "uid")).
  Proof.
    destruct s as [v|]; unfold s_conds; rewrite ?meets_cons, meets_nil; cbn [meets]; unfold fits_one.
    - split; [intros [H _] w [= <-]; exact H | intros H; split; auto].
    - split; [intros _ w; discriminate | auto].
  Qed.
  Lemma c_meets (e : env V) s : (forall m, In m (c_conds s) -> meets same e m = true) <-> fits_one same s (e (lit "to") (lit "uid")).
  Proof.
    destruct s as [v|]; unfold c_conds; rewrite ?meets_cons, meets_nil; cbn [meets]; unfold fits_one.
    - split; [intros [H _] w [= <-]; exact H | intros H; split; auto].
    - split; [intros _ w; discriminate | auto].
  Qed.
  Lemma p_meets (e : env V) p : (forall m, In m (p_conds p) -> meets same e m = true) <->
    fits_two same p (e (lit "tp") (lit "ns_idx")) (e (lit "tp") (lit "name")).
  Proof.
    destruct p as [(v, w)|]; unfold p_conds; rewrite ?meets_cons, meets_nil; cbn [meets]; unfold fits_two.
    - split; [intros (H1 & H2 & _) w1 w2 [= <- <-]; auto | intros H; destruct (H v w eq_refl); auto].
    - split; [intros _ w1 w2; discriminate | auto].
  Qed.
  Lemma t_meets (e : env V) p : (forall m, In m (t_conds p) -> meets same e m = true) <->
    fits_two same p (e (lit "to") (lit "ns_idx")) (e (lit "to") (lit "name")).
  Proof.
    destruct p as [(v, w)|]; unfold t_conds; rewrite ?meets_cons, meets_nil; cbn [meets]; unfold fits_two.
    - split; [intros (H1 & H2 & _) w1 w2 [= <- <-]; auto | intros H; destruct (H v w eq_refl); auto].
    - split; [intros _ w1 w2; discriminate | auto].
  Qed.

  Lemma s_names s : Forall (fun m => Forall clean_name (cond_names m)) (s_conds s).
  Proof. destruct s; unfold s_conds; names_all. Qed.
  Lemma p_names s : Forall (fun m => Forall clean_name (cond_names m)) (p_conds s).
  Proof. destruct s as [(?, ?)|]; unfold p_conds; names_all. Qed.
  Lemma c_names s : Forall (fun m => Forall clean_name (cond_names m)) (c_conds s).
  Proof. destruct s; unfold c_conds; names_all. Qed.
  Lemma t_names s : Forall (fun m => Forall clean_name (cond_names m)) (t_conds s).
  Proof. destruct s as [(?, ?)|]; unfold t_conds; names_all. Qed.

  (** SELECT on the table of relationships: exactly the stored relationships that fit the
      pattern. *)
  Theorem C69_select_rels : forall (db : database V) s p o dt, shape db ->
    exists q rows,
      construct_query as_set (Pattern s p (option_map OUid o)) (lit "OSP_V1_RELATIONS") dt = Ok q
      /\ execute (fst (db_select q)) (plookup (snd (db_select q))) db = Some (Done db rows)
      /\ forall x, In x rows <-> exists s' ns nm o', x = [s'; ns; nm; o']
           /\ stored_rel same db s' ns nm o'
           /\ fits_one same s s' /\ fits_two same p ns nm /\ fits_one same o o'.
  Proof.
    intros db s p o dt ((xc & Hxc & Hcc) & (xe & Hxe & Hce) & _ & _ & (xr & Hxr & Hcr)).
    set (T := lit "OSP_V1_RELATIONS") in *.
    assert (Eg : get_conditions as_set (Pattern s p (option_map OUid o)) T dt = Ok (s_conds s ++ p_conds p ++ c_conds o)).
    { unfold get_conditions. cbn [p_s p_p p_o]. change (str_eqb T TYPES_TABLE) with false.
      change (str_eqb T RELATIONSHIP_TABLE) with true. destruct p as [(ns, nm)|], o as [v|]; cbn [option_map]; cbv iota;
        cbn [p_conds c_conds]; rewrite ?app_nil_r; reflexivity. }
    unfold construct_query. rewrite Eg.
    change (str_eqb T TYPES_TABLE) with false. change (str_eqb T RELATIONSHIP_TABLE) with true.
    change (startswith DATA_TABLE_PREFIX T) with false. cbv iota.
    rewrite join_ok by (vm_compute; reflexivity). cbn [rmap].
    rewrite join_ok by (vm_compute; reflexivity). cbn [rmap].
    rewrite join_ok by (vm_compute; reflexivity). cbv iota beta.
    set (J1 := CJoin (A:=A) T (lit "s") (lit "ts") (lit "cuds_idx")).
    set (J2 := CJoin (A:=A) T (lit "p") (lit "tp") (lit "entity_idx")).
    set (J3 := CJoin (A:=A) T (lit "o") (lit "to") (lit "cuds_idx")).
    match goal with |- exists q _, Ok ?x = _ /\ _ => set (q := x) end.
    set (members := ([J1; J2] ++ [J3]) ++ (s_conds s ++ p_conds p ++ c_conds o)).
    destruct (run_query q [(lit "ts", CUDS_TABLE, [lit "uid"]); (lit "tp", ENTITIES_TABLE, [lit "ns_idx"; lit "name"]);
                           (lit "to", CUDS_TABLE, [lit "uid"]); (T, T, [])] members db) as (rows & Hrun & Hrows).
    - unfold q. apply b_where. apply built_join; [|vm_compute; reflexivity].
      apply b_where. apply built_join; [|vm_compute; reflexivity].
      apply b_where. apply built_join; [|vm_compute; reflexivity].
      apply b_where. apply b_new.
    - reflexivity.
    - apply (conj_add _ ([J1; J2] ++ [J3])). apply (conj_add1 _ [J1; J2]); [|reflexivity]. now apply conj_two.
    - unfold members. destruct s, p as [(?, ?)|], o; cbn; lia.
    - unfold members. destruct s, p as [(?, ?)|], o; repeat constructor.
    - cbn [flat_map app]. clean_all.
    - unfold members. apply Forall_app. split; [names_all|]. apply Forall_app. split; [apply s_names|]. apply Forall_app. split; [apply p_names | apply c_names].
    - discriminate.
    - intros a t cs Hin. cbn [In] in Hin. destruct Hin as [E|[E|[E|[E|[]]]]]; injection E as <- <- <-.
      + exists xc. split; [exact Hxc|]. intros c Hc. apply Hcc. cbn [In] in *. tauto.
      + exists xe. split; [exact Hxe|]. intros c Hc. apply Hce. cbn [In] in *. tauto.
      + exists xc. split; [exact Hxc|]. intros c Hc. apply Hcc. cbn [In] in *. tauto.
      + exists xr. split; [exact Hxr|]. intros c [].
    - intros m a c Hm Hac.
      assert (H : (a = T /\ In c [lit "s"; lit "p"; lit "o"]) \/ (a = lit "ts" /\ In c [lit "cuds_idx"; lit "uid"])
                  \/ (a = lit "tp" /\ In c [lit "entity_idx"; lit "ns_idx"; lit "name"])
                  \/ (a = lit "to" /\ In c [lit "cuds_idx"; lit "uid"])).
      { unfold members in Hm. repeat (apply in_app_or in Hm as [Hm|Hm]).
        - destruct Hm as [<-|[<-|[]]]; destruct Hac as [E|[E|[]]]; injection E as <- <-; cbn [In]; tauto.
        - destruct Hm as [<-|[]]; destruct Hac as [E|[E|[]]]; injection E as <- <-; cbn [In]; tauto.
        - destruct s; [|destruct Hm]. destruct Hm as [<-|[]]; destruct Hac as [E|[]]; injection E as <- <-; cbn [In]; tauto.
        - destruct p as [(?, ?)|]; [|destruct Hm].
          destruct Hm as [<-|[<-|[]]]; destruct Hac as [E|[]]; injection E as <- <-; cbn [In]; tauto.
        - destruct o; [|destruct Hm]. destruct Hm as [<-|[]]; destruct Hac as [E|[]]; injection E as <- <-; cbn [In]; tauto. }
      destruct H as [[-> Hc]|[[-> Hc]|[[-> Hc]|[-> Hc]]]].
      + exists T, [], xr. split; [cbn [In]; tauto|]. split; [exact Hxr|]. auto.
      + exists CUDS_TABLE, [lit "uid"], xc. split; [cbn [In]; tauto|]. split; [exact Hxc|]. auto.
      + exists ENTITIES_TABLE, [lit "ns_idx"; lit "name"], xe. split; [cbn [In]; tauto|]. split; [exact Hxe|]. auto.
      + exists CUDS_TABLE, [lit "uid"], xc. split; [cbn [In]; tauto|]. split; [exact Hxc|]. auto.
    - exists q, rows. split; [reflexivity|]. split; [exact Hrun|]. intros x. rewrite Hrows.
      cbn [map]. change (q_columns q) with [(lit "ts", lit "uid"); (lit "tp", lit "ns_idx"); (lit "tp", lit "name"); (lit "to", lit "uid")].
      unfold members. setoid_rewrite meets_app. setoid_rewrite meets_app. setoid_rewrite meets_app.
      setoid_rewrite one_meets. setoid_rewrite p_meets. setoid_rewrite c_meets.
      setoid_rewrite meets_cons. setoid_rewrite meets_cons. setoid_rewrite meets_nil.
      assert (Hval : forall (c e c' r : row V) e0,
        let env0 := bind_row (lit "ts") c (bind_row (lit "tp") e (bind_row (lit "to") c' (bind_row T r e0))) in
        (forall k, env0 (lit "ts") k = c k) /\ (forall k, env0 (lit "tp") k = e k)
        /\ (forall k, env0 (lit "to") k = c' k) /\ (forall k, env0 T k = r k)) by (intros; repeat split).
      split.
      + intros (env0 & Hin & Hm & ->).
        apply in_product in Hin as (c & e1 & Hc & Hin & ->). apply in_product in Hin as (e & e2 & He & Hin & ->).
        apply in_product in Hin as (c' & e3 & Hc' & Hin & ->). apply in_product in Hin as (r & e4 & Hr & _ & ->).
        pose proof (Hval c e c' r e4) as HV. cbv zeta in HV. set (en := bind_row (lit "ts") c _) in *. clearbody en.
        destruct HV as (V1 & V2 & V3 & V4).
        unfold J1, J2, J3 in Hm. cbn [meets] in Hm. rewrite !V1, !V2, !V3, !V4 in Hm.
        destruct Hm as (((M1 & M2 & _) & M3 & _) & F1 & F2 & F3). cbn [map]. rewrite !V1, !V2, !V3.
        exists (c (lit "uid")), (e (lit "ns_idx")), (e (lit "name")), (c' (lit "uid")). split; [reflexivity|].
        split; [|auto]. exists c, e, c', r. auto 12.
      + intros (s' & ns & nm & o' & -> & (c & e & c' & r & Hc & He & Hc' & Hr & M1 & M2 & M3 & -> & -> & -> & ->) & F1 & F2 & F3).
        pose proof (Hval c e c' r (fun _ _ => null)) as HV. cbv zeta in HV.
        exists (bind_row (lit "ts") c (bind_row (lit "tp") e (bind_row (lit "to") c' (bind_row T r (fun _ _ => null))))).
        split; [|split].
        * apply in_product. exists c. eexists. split; [exact Hc|]. split; [|reflexivity].
          apply in_product. exists e. eexists. split; [exact He|]. split; [|reflexivity].
          apply in_product. exists c'. eexists. split; [exact Hc'|]. split; [|reflexivity].
          apply in_product. exists r. eexists. split; [exact Hr|]. split; [left; reflexivity | reflexivity].
        * set (en := bind_row (lit "ts") c _) in *. clearbody en. destruct HV as (V1 & V2 & V3 & V4).
          unfold J1, J2, J3. cbn [meets]. rewrite !V1, !V2, !V3, !V4. auto 12.
        * set (en := bind_row (lit "ts") c _) in *. clearbody en. destruct HV as (V1 & V2 & V3 & V4).
          cbn [map]. rewrite !V1, !V2, !V3. reflexivity.
  Qed.
  (** SELECT on the table of classes (the predicate of the pattern is not looked at: it is
      rdf:type). *)
  Theorem C69_select_types : forall (db : database V) s p o dt, shape db ->
    exists q rows,
      construct_query as_set (Pattern s p (option_map (fun '(ns, nm) => OEnt ns nm) o)) (lit "OSP_V1_TYPES") dt = Ok q
      /\ execute (fst (db_select q)) (plookup (snd (db_select q))) db = Some (Done db rows)
      /\ forall x, In x rows <-> exists s' ns nm, x = [s'; ns; nm]
           /\ stored_type same db s' ns nm
           /\ fits_one same s s' /\ fits_two same o ns nm.
  Proof.
    intros db s p o dt ((xc & Hxc & Hcc) & (xe & Hxe & Hce) & _ & (xr & Hxr & Hcr) & _).
    set (T := lit "OSP_V1_TYPES") in *.
    assert (Eg : get_conditions as_set (Pattern s p (option_map (fun '(ns, nm) => OEnt ns nm) o)) T dt = Ok (s_conds s ++ t_conds o)).
    { unfold get_conditions. cbn [p_s p_p p_o]. change (str_eqb T TYPES_TABLE) with true.
      change (str_eqb T RELATIONSHIP_TABLE) with false. destruct p as [(ns, nm)|], o as [(v, w)|]; cbn [option_map]; cbv iota;
        cbn [t_conds]; rewrite ?app_nil_r; reflexivity. }
    unfold construct_query. rewrite Eg.
    change (str_eqb T TYPES_TABLE) with true. change (str_eqb T RELATIONSHIP_TABLE) with false.
    change (startswith DATA_TABLE_PREFIX T) with false. cbv iota.
    rewrite join_ok by (vm_compute; reflexivity). cbn [rmap].
    rewrite join_ok by (vm_compute; reflexivity). cbv iota beta.
    set (J1 := CJoin (A:=A) T (lit "s") (lit "ts") (lit "cuds_idx")).
    set (J2 := CJoin (A:=A) T (lit "o") (lit "to") (lit "entity_idx")).
    match goal with |- exists q _, Ok ?x = _ /\ _ => set (q := x) end.
    set (members := [J1; J2] ++ (s_conds s ++ t_conds o)).
    destruct (run_query q [(lit "ts", CUDS_TABLE, [lit "uid"]); (lit "to", ENTITIES_TABLE, [lit "ns_idx"; lit "name"]);
                           (T, T, [])] members db) as (rows & Hrun & Hrows).
    - unfold q. apply b_where. apply built_join; [|vm_compute; reflexivity].
      apply b_where. apply built_join; [|vm_compute; reflexivity].
      apply b_where. apply b_new.
    - reflexivity.
    - apply (conj_add _ [J1; J2]). now apply conj_two.
    - unfold members. destruct s, o as [(?, ?)|]; cbn; lia.
    - unfold members. destruct s, o as [(?, ?)|]; repeat constructor.
    - cbn [flat_map app]. clean_all.
    - unfold members. apply Forall_app. split; [names_all|]. apply Forall_app. split; [apply s_names | apply t_names].
    - discriminate.
    - intros a t cs Hin. cbn [In] in Hin. destruct Hin as [E|[E|[E|[]]]]; injection E as <- <- <-.
      + exists xc. split; [exact Hxc|]. intros c Hc. apply Hcc. cbn [In] in *. tauto.
      + exists xe. split; [exact Hxe|]. intros c Hc. apply Hce. cbn [In] in *. tauto.
      + exists xr. split; [exact Hxr|]. intros c [].
    - intros m a c Hm Hac.
      assert (H : (a = T /\ In c [lit "s"; lit "o"]) \/ (a = lit "ts" /\ In c [lit "cuds_idx"; lit "uid"])
                  \/ (a = lit "to" /\ In c [lit "entity_idx"; lit "ns_idx"; lit "name"])).
      { unfold members in Hm. repeat (apply in_app_or in Hm as [Hm|Hm]).
        - destruct Hm as [<-|[<-|[]]]; destruct Hac as [E|[E|[]]]; injection E as <- <-; cbn [In]; tauto.
        - destruct s; [|destruct Hm]. destruct Hm as [<-|[]]; destruct Hac as [E|[]]; injection E as <- <-; cbn [In]; tauto.
        - destruct o as [(?, ?)|]; [|destruct Hm].
          destruct Hm as [<-|[<-|[]]]; destruct Hac as [E|[]]; injection E as <- <-; cbn [In]; tauto. }
      destruct H as [[-> Hc]|[[-> Hc]|[-> Hc]]].
      + exists T, [], xr. split; [cbn [In]; tauto|]. split; [exact Hxr|]. auto.
      + exists CUDS_TABLE, [lit "uid"], xc. split; [cbn [In]; tauto|]. split; [exact Hxc|]. auto.
      + exists ENTITIES_TABLE, [lit "ns_idx"; lit "name"], xe. split; [cbn [In]; tauto|]. split; [exact Hxe|]. auto.
    - exists q, rows. split; [reflexivity|]. split; [exact Hrun|]. intros x. rewrite Hrows.
      cbn [map]. change (q_columns q) with [(lit "ts", lit "uid"); (lit "to", lit "ns_idx"); (lit "to", lit "name")].
      unfold members. setoid_rewrite meets_app. setoid_rewrite meets_app.
      setoid_rewrite one_meets. setoid_rewrite t_meets.
      setoid_rewrite meets_cons. setoid_rewrite meets_cons. setoid_rewrite meets_nil.
      assert (Hval : forall (c e r : row V) e0,
        let env0 := bind_row (lit "ts") c (bind_row (lit "to") e (bind_row T r e0)) in
        (forall k, env0 (lit "ts") k = c k) /\ (forall k, env0 (lit "to") k = e k)
        /\ (forall k, env0 T k = r k)) by (intros; repeat split).
      split.
      + intros (env0 & Hin & Hm & ->).
        apply in_product in Hin as (c & e1 & Hc & Hin & ->). apply in_product in Hin as (e & e2 & He & Hin & ->).
        apply in_product in Hin as (r & e4 & Hr & _ & ->).
        pose proof (Hval c e r e4) as HV. cbv zeta in HV. set (en := bind_row (lit "ts") c _) in *. clearbody en.
        destruct HV as (V1 & V2 & V4).
        unfold J1, J2 in Hm. cbn [meets] in Hm. rewrite !V1, !V2, !V4 in Hm.
        destruct Hm as ((M1 & M2 & _) & F1 & F2). cbn [map]. rewrite !V1, !V2.
        exists (c (lit "uid")), (e (lit "ns_idx")), (e (lit "name")). split; [reflexivity|].
        split; [|auto]. exists c, e, r. auto 12.
      + intros (s' & ns & nm & -> & (c & e & r & Hc & He & Hr & M1 & M2 & -> & -> & ->) & F1 & F2).
        pose proof (Hval c e r (fun _ _ => null)) as HV. cbv zeta in HV.
        exists (bind_row (lit "ts") c (bind_row (lit "to") e (bind_row T r (fun _ _ => null)))).
        split; [|split].
        * apply in_product. exists c. eexists. split; [exact Hc|]. split; [|reflexivity].
          apply in_product. exists e. eexists. split; [exact He|]. split; [|reflexivity].
          apply in_product. exists r. eexists. split; [exact Hr|]. split; [left; reflexivity | reflexivity].
        * set (en := bind_row (lit "ts") c _) in *. clearbody en. destruct HV as (V1 & V2 & V4).
          unfold J1, J2. cbn [meets]. rewrite !V1, !V2, !V4. auto 12.
        * set (en := bind_row (lit "ts") c _) in *. clearbody en. destruct HV as (V1 & V2 & V4).
          cbn [map]. rewrite !V1, !V2. reflexivity.
  Qed.

  (** The condition for a literal. *)
  Lemma object_condition_spec t dt ocols edt ws : clean_name t ->
    get_expanded_cols (lit "o") (Some dt) = Ok (ocols, edt) -> List.length ws = List.length ocols ->
    exists c, object_condition as_set t dt ws = Ok c /\ flat c /\ Forall clean_name (cond_names c)
      /\ (forall a k, In (a, k) (cond_cols c) -> a = t /\ In k ocols)
      /\ (forall e : env V, meets same e c = true <-> Forall2 (fun v w => same v w = true) (map (e t) ocols) ws).
  Proof.
    intros Ht E Hl. unfold object_condition. rewrite E.
    destruct (expanded_cols_clean _ _ _ E) as (Hcl & _ & _). destruct (expanded_cols_form _ _ _ E) as (_ & _ & Hsc).
    assert (Hall : forall e : env V, Forall (fun m => meets same e m = true) (map (fun '(c, w) => CEq t c w edt) (combine ocols ws))
              <-> Forall2 (fun v w => same v w = true) (map (e t) ocols) ws).
    { clear -Hl. intros e. revert ws Hl. induction ocols as [|k ks IH]; intros [|w ws] Hl; try discriminate; cbn [combine map].
      - split; constructor.
      - rewrite Forall_cons_iff, IH by (cbn in Hl; lia). cbn [meets]. split.
        + intros [H1 H2]. now constructor.
        + intros H. inversion H; subst. auto. }
    assert (Hmem : forall m, In m (map (fun '(c, w) => CEq t c w edt) (combine ocols ws)) ->
              exists k w, In k ocols /\ m = CEq t k w edt).
    { intros m Hm. apply in_map_iff in Hm as ((k, w) & <- & Hm). exists k, w. split; [now apply in_combine_l in Hm | reflexivity]. }
    destruct (is_vector (Some dt)) eqn:Ev.
    - eexists. split; [reflexivity|]. split; [|split; [|split]].
      + cbn. apply Forall_forall. intros m Hm. apply (proj1 (as_set_in _ _)) in Hm. destruct (Hmem m Hm) as (k & w & _ & ->). reflexivity.
      + cbn. apply Forall_forall. intros x Hx. apply in_flat_map in Hx as (m & Hm & Hx). apply (proj1 (as_set_in _ _)) in Hm.
        destruct (Hmem m Hm) as (k & w & Hk & ->). destruct Hx as [<-|[<-|[]]]; [exact Ht|]. rewrite Forall_forall in Hcl. auto.
      + intros a k Hak. cbn in Hak. apply in_flat_map in Hak as (m & Hm & Hx). apply (proj1 (as_set_in _ _)) in Hm.
        destruct (Hmem m Hm) as (k' & w & Hk & ->). destruct Hx as [[= <- <-]|[]]. auto.
      + intros e. rewrite <- Hall, Forall_forall. cbn [meets]. rewrite forallb_forall. setoid_rewrite as_set_in. reflexivity.
    - rewrite Hsc in * by reflexivity. destruct ws as [|w [|w' ws]]; [discriminate Hl| |discriminate Hl].
      cbn [combine map]. eexists. split; [reflexivity|]. split; [exact I|]. split; [|split].
      + apply names_one; [exact Ht | cln].
      + intros a k [[= <- <-]|[]]. split; [reflexivity | now left].
      + intros e. specialize (Hall e). cbn [combine map] in Hall |- *. rewrite <- Hall, Forall_cons_iff. split; [auto | tauto].
  Qed.

  (** SELECT on a data table: the values of the object follow the subject and the entity. *)
  Theorem C69_select_data : forall (db : database V) s p o t dt ocols edt, shape db ->
    startswith DATA_TABLE_PREFIX t = true -> clean_name t ->
    get_expanded_cols (lit "o") (Some dt) = Ok (ocols, edt) -> has_table db t (lit "s" :: lit "p" :: ocols) ->
    (forall ws, o = Some ws -> List.length ws = List.length ocols) ->
    exists q rows,
      construct_query as_set (Pattern s p (option_map OVal o)) t dt = Ok q
      /\ execute (fst (db_select q)) (plookup (snd (db_select q))) db = Some (Done db rows)
      /\ forall x, In x rows <-> exists s' ns nm os, x = s' :: ns :: nm :: os
           /\ stored_data same db t ocols s' ns nm os
           /\ fits_one same s s' /\ fits_two same p ns nm /\ fits_all same o os.
  Proof.
    intros db s p o T dt ocols edt ((xc & Hxc & Hcc) & (xe & Hxe & Hce) & _) Hpre HT Eoc (xr & Hxr & Hcr) Hlen.
    assert (Hne : str_eqb T TYPES_TABLE = false /\ str_eqb T RELATIONSHIP_TABLE = false
                  /\ str_eqb T (lit "ts") = false /\ str_eqb T (lit "tp") = false
                  /\ str_eqb (lit "ts") T = false /\ str_eqb (lit "tp") T = false).
    { apply startswith_iff in Hpre as (u & ->). repeat split. }
    destruct Hne as (N1 & N2 & N3 & N4 & N5 & N6).
    assert (exists vc, get_conditions as_set (Pattern s p (option_map OVal o)) T dt = Ok (s_conds s ++ p_conds p ++ vc)
      /\ List.length vc <= 1 /\ Forall flat vc /\ Forall (fun m => Forall clean_name (cond_names m)) vc
      /\ (forall m a k, In m vc -> In (a, k) (cond_cols m) -> a = T /\ In k ocols)
      /\ (forall e : env V, (forall m, In m vc -> meets same e m = true) <-> fits_all same o (map (e T) ocols)))
      as (vc & Eg & Lvc & Fvc & Nvc & Cvc & Mvc).
    { unfold get_conditions. cbn [p_s p_p p_o]. rewrite N1, N2. destruct o as [ws|]; cbn [option_map].
      - destruct (object_condition_spec T dt ocols edt ws HT Eoc (Hlen ws eq_refl)) as (c & -> & H1 & H2 & H3 & H4).
        exists [c]. split; [destruct p as [(?, ?)|]; reflexivity|]. split; [cbn; lia|]. split; [now constructor|].
        split; [now constructor|]. split.
        + intros m a k [<-|[]]. apply H3.
        + intros e. rewrite meets_cons, meets_nil, H4. unfold fits_all. split; [intros [H _] ws' [= <-]; exact H | intros H; auto].
      - exists []. split; [destruct p as [(?, ?)|]; cbn [p_conds]; rewrite ?app_nil_r; reflexivity|].
        split; [cbn; lia|]. split; [constructor|]. split; [constructor|]. split; [intros m a k []|].
        intros e. rewrite meets_nil. unfold fits_all. split; [intros _ ws; discriminate | auto]. }
    unfold construct_query. rewrite Eg, N1, N2, Hpre, Eoc. cbv iota. cbn [rmap fst].
    rewrite join_ok by (vm_compute; reflexivity). cbn [rmap]. cbv iota beta.
    assert (Hex : forall q : query A,
      q_parts q = [(lit "ts", CUDS_TABLE, [lit "uid"]); (lit "tp", ENTITIES_TABLE, [lit "ns_idx"; lit "name"])] ->
      existsb (fun '(a', _, _) => str_eqb (alias_or None T) a') (q_parts q) = false).
    { intros q0 ->. change (alias_or None T) with T. cbn [existsb]. now rewrite N3, N4. }
    rewrite join_ok by (apply Hex; reflexivity).
    cbv iota beta.
    set (J1 := CJoin (A:=A) T (lit "s") (lit "ts") (lit "cuds_idx")).
    set (J2 := CJoin (A:=A) T (lit "p") (lit "tp") (lit "entity_idx")).
    match goal with |- exists q _, Ok ?x = _ /\ _ => set (q := x) end.
    set (members := [J1; J2] ++ (s_conds s ++ p_conds p ++ vc)).
    assert (Hpq : q_parts q = [(lit "ts", CUDS_TABLE, [lit "uid"]); (lit "tp", ENTITIES_TABLE, [lit "ns_idx"; lit "name"]);
                           (T, T, ocols)]) by reflexivity.
    destruct (run_query q [(lit "ts", CUDS_TABLE, [lit "uid"]); (lit "tp", ENTITIES_TABLE, [lit "ns_idx"; lit "name"]);
                           (T, T, ocols)] members db) as (rows & Hrun & Hrows).
    - unfold q. apply b_where. apply built_join.
      + apply b_where. apply built_join; [|vm_compute; reflexivity]. apply b_where. apply b_new.
      + apply Hex. reflexivity.
    - reflexivity.
    - apply (conj_add _ [J1; J2]). now apply conj_two.
    - unfold members. rewrite !app_length. destruct s, p as [(?, ?)|]; cbn; lia.
    - unfold members. apply Forall_app. split; [repeat constructor|]. apply Forall_app. split; [destruct s; repeat constructor|].
      apply Forall_app. split; [destruct p as [(?, ?)|]; repeat constructor | exact Fvc].
    - cbn [flat_map app]. do 7 (apply Forall_cons; [cln|]). apply Forall_cons; [exact HT|]. apply Forall_cons; [exact HT|].
      rewrite app_nil_r. apply (expanded_cols_clean _ _ _ Eoc).
    - unfold members. apply Forall_app. split.
      + apply Forall_cons; [|apply Forall_cons; [|constructor]]; cbn [J1 J2 cond_names]; (apply Forall_cons; [exact HT|]); clean_all.
      + apply Forall_app. split; [apply s_names|]. apply Forall_app. split; [apply p_names | exact Nvc].
    - unfold q_columns. rewrite Hpq. discriminate.
    - intros a t cs Hin. cbn [In] in Hin. destruct Hin as [E|[E|[E|[]]]]; injection E as <- <- <-.
      + exists xc. split; [exact Hxc|]. intros c Hc. apply Hcc. cbn [In] in *. tauto.
      + exists xe. split; [exact Hxe|]. intros c Hc. apply Hce. cbn [In] in *. tauto.
      + exists xr. split; [exact Hxr|]. intros c Hc. apply Hcr. now right; right.
    - intros m a c Hm Hac.
      assert (H : (a = T /\ In c (lit "s" :: lit "p" :: ocols)) \/ (a = lit "ts" /\ In c [lit "cuds_idx"; lit "uid"])
                  \/ (a = lit "tp" /\ In c [lit "entity_idx"; lit "ns_idx"; lit "name"])).
      { unfold members in Hm. repeat (apply in_app_or in Hm as [Hm|Hm]).
        - destruct Hm as [<-|[<-|[]]]; destruct Hac as [E|[E|[]]]; injection E as <- <-; cbn [In]; tauto.
        - destruct s; [|destruct Hm]. destruct Hm as [<-|[]]; destruct Hac as [E|[]]; injection E as <- <-; cbn [In]; tauto.
        - destruct p as [(?, ?)|]; [|destruct Hm].
          destruct Hm as [<-|[<-|[]]]; destruct Hac as [E|[]]; injection E as <- <-; cbn [In]; tauto.
        - destruct (Cvc m a c Hm Hac) as [-> Hc]. left. split; [reflexivity | now right; right]. }
      destruct H as [[-> Hc]|[[-> Hc]|[-> Hc]]].
      + exists T, ocols, xr. split; [cbn [In]; tauto|]. split; [exact Hxr|]. auto.
      + exists CUDS_TABLE, [lit "uid"], xc. split; [cbn [In]; tauto|]. split; [exact Hxc|]. auto.
      + exists ENTITIES_TABLE, [lit "ns_idx"; lit "name"], xe. split; [cbn [In]; tauto|]. split; [exact Hxe|]. auto.
    - exists q, rows. split; [reflexivity|]. split; [exact Hrun|]. intros x. rewrite Hrows.
      cbn [map].
      assert (Hqc : q_columns q = (lit "ts", lit "uid") :: (lit "tp", lit "ns_idx") :: (lit "tp", lit "name") :: map (fun c => (T, c)) ocols).
      { unfold q_columns. rewrite Hpq. cbn [flat_map map app]. now rewrite app_nil_r. }
      rewrite Hqc.
      unfold members. setoid_rewrite meets_app. setoid_rewrite meets_app. setoid_rewrite meets_app.
      setoid_rewrite one_meets. setoid_rewrite p_meets. setoid_rewrite Mvc.
      setoid_rewrite meets_cons. setoid_rewrite meets_cons. setoid_rewrite meets_nil.
      assert (Hval : forall (c e r : row V) e0,
        let env0 := bind_row (lit "ts") c (bind_row (lit "tp") e (bind_row T r e0)) in
        (forall k, env0 (lit "ts") k = c k) /\ (forall k, env0 (lit "tp") k = e k)
        /\ (forall k, env0 T k = r k)).
      { intros. split; [reflexivity|]. split; [reflexivity|]. intros k. unfold env0. rewrite !bind_other by assumption. apply bind_same. }
      split.
      + intros (env0 & Hin & Hm & ->).
        apply in_product in Hin as (c & e1 & Hc & Hin & ->). apply in_product in Hin as (e & e2 & He & Hin & ->).
        apply in_product in Hin as (r & e4 & Hr & _ & ->).
        pose proof (Hval c e r e4) as HV. cbv zeta in HV. set (en := bind_row (lit "ts") c _) in *. clearbody en.
        destruct HV as (V1 & V2 & V4).
        unfold J1, J2 in Hm. cbn [meets] in Hm. rewrite !V1, !V2, !V4 in Hm. rewrite (map_ext _ r V4) in Hm.
        destruct Hm as ((M1 & M2 & _) & F1 & F2 & F3). cbn [map]. rewrite !V1, !V2, map_map, (map_ext _ r V4).
        exists (c (lit "uid")), (e (lit "ns_idx")), (e (lit "name")), (map r ocols). split; [reflexivity|].
        split; [|auto]. exists c, e, r. auto 12.
      + intros (s' & ns & nm & os & -> & (c & e & r & Hc & He & Hr & M1 & M2 & -> & -> & -> & ->) & F1 & F2 & F3).
        pose proof (Hval c e r (fun _ _ => null)) as HV. cbv zeta in HV.
        exists (bind_row (lit "ts") c (bind_row (lit "tp") e (bind_row T r (fun _ _ => null)))).
        split; [|split].
        * apply in_product. exists c. eexists. split; [exact Hc|]. split; [|reflexivity].
          apply in_product. exists e. eexists. split; [exact He|]. split; [|reflexivity].
          apply in_product. exists r. eexists. split; [exact Hr|]. split; [left; reflexivity | reflexivity].
        * set (en := bind_row (lit "ts") c _) in *. clearbody en. destruct HV as (V1 & V2 & V4).
          unfold J1, J2. cbn [meets]. rewrite !V1, !V2, !V4, (map_ext _ r V4). auto 12.
        * set (en := bind_row (lit "ts") c _) in *. clearbody en. destruct HV as (V1 & V2 & V4).
          cbn [map]. rewrite !V1, !V2, map_map, (map_ext _ r V4). reflexivity.
  Qed.

  (** ** DELETE *)
  Definition i_conds (t k : str) (x : option V) : list (cond A) :=
    match x with Some v => [CEq t k v (Some XSD_integer)] | None => [] end.
  Lemma i_meets (e : env V) t k x : (forall m, In m (i_conds t k x) -> meets same e m = true) <-> fits_one same x (e t k).
  Proof.
    destruct x as [v|]; unfold i_conds; rewrite ?meets_cons, meets_nil; cbn [meets]; unfold fits_one.
    - split; [intros [H _] w [= <-]; exact H | intros H; split; auto].
    - split; [intros _ w; discriminate | auto].
  Qed.
  Lemma i_names t k x : clean_name t -> clean_name k -> Forall (fun m => Forall clean_name (cond_names m)) (i_conds t k x).
  Proof. intros H1 H2. destruct x; constructor; [|constructor]. now apply names_one. Qed.
  Lemma i_flat t k x : Forall flat (i_conds t k x).
  Proof. destruct x; repeat constructor. Qed.
  Lemma i_cols t k x m a c : In m (i_conds t k x) -> In (a, c) (cond_cols m) -> a = t /\ c = k.
  Proof. destruct x; [|intros []]. intros [<-|[]] [[= <- <-]|[]]. auto. Qed.
  Lemma i_len t k x : List.length (i_conds t k x) <= 1.
  Proof. destruct x; cbn; lia. Qed.

  Lemma run_delete t members (db : database V) x (P : row V -> Prop) :
    clean_name t -> db t = Some x -> List.length members <= 10 -> Forall flat members ->
    Forall (fun m => Forall clean_name (cond_names m)) members ->
    (forall m a k, In m members -> In (a, k) (cond_cols m) -> a = t /\ In k (tcols x)) ->
    (forall r, (forall m, In m members -> meets same (row_env null t r) m = true) <-> P r) ->
    let c := Some (CAnd (as_set members)) in
    exists kept, execute (fst (db_delete t c)) (plookup (snd (db_delete t c))) db
      = Some (Done (dbset db t (Some (Table (tcols x) kept))) [])
      /\ forall r, In r kept <-> In r (trows x) /\ ~ P r.
  Proof.
    intros Ht Hx Hl Hf Hn Hc HP c.
    assert (Hco : conj_of c members).
    { unfold c. eexists. split; [reflexivity|]. split; [intros y; apply as_set_in | apply as_set_len]. }
    eexists. split.
    - apply C67_delete; [exact Ht | eapply conj_names; eauto | exact Hx | | eapply conj_narrow; eauto].
      intros a k Hin. destruct (conj_cols _ _ _ _ Hco Hin) as (m & Hm & Hak). eauto.
    - intros r. rewrite filter_In, <- HP, <- (conj_meets _ _ (row_env null t r) Hco), negb_true_iff, <- not_true_iff_false. reflexivity.
  Qed.
  Lemma row_env_same t (r : row V) k : row_env null t r t k = r k.
  Proof. apply bind_same. Qed.

  (** In the table of types. *)
  Lemma remove_types_rows (db : database V) si pi oi dt x : db (lit "OSP_V1_TYPES") = Some x ->
    (forall c, In c [lit "s"; lit "o"] -> In c (tcols x)) ->
    exists c kept,
      construct_remove_condition as_set (IPattern si pi (option_map (fun o => [o]) oi)) (lit "OSP_V1_TYPES") dt = Ok c
      /\ execute (fst (db_delete (lit "OSP_V1_TYPES") (Some c))) (plookup (snd (db_delete (lit "OSP_V1_TYPES") (Some c)))) db
         = Some (Done (dbset db (lit "OSP_V1_TYPES") (Some (Table (tcols x) kept))) [])
      /\ forall r, In r kept <-> In r (trows x) /\ ~ (fits_one same si (r (lit "s")) /\ fits_one same oi (r (lit "o"))).
  Proof.
    intros Hx Hcs. set (T := lit "OSP_V1_TYPES") in *.
    assert (HT : clean_name T) by (unfold T; cln).
    set (members := i_conds T (lit "s") si ++ i_conds T (lit "o") oi).
    assert (Ec : construct_remove_condition as_set (IPattern si pi (option_map (fun o => [o]) oi)) T dt = Ok (CAnd (as_set members))).
    { unfold construct_remove_condition. cbn [i_s i_o i_p]. change (str_eqb T TYPES_TABLE) with true. cbv iota.
      unfold members. destruct oi; cbn [option_map]; [reflexivity|]. cbn [i_conds]. now rewrite app_nil_r. }
    destruct (run_delete T members db x (fun r => fits_one same si (r (lit "s")) /\ fits_one same oi (r (lit "o")))) as (kept & H1 & H2);
      [exact HT | exact Hx | | | | | |].
    - unfold members. rewrite app_length. pose proof (i_len T (lit "s") si). pose proof (i_len T (lit "o") oi). lia.
    - apply Forall_app. split; apply i_flat.
    - apply Forall_app. split; apply i_names; auto; cln.
    - intros m a k Hm Hak. apply in_app_or in Hm as [Hm|Hm]; destruct (i_cols _ _ _ _ _ _ Hm Hak) as [-> ->];
        (split; [reflexivity|]; apply Hcs; cbn [In]; tauto).
    - intros r. unfold members. rewrite meets_app, !i_meets, !row_env_same. reflexivity.
    - exists (CAnd (as_set members)), kept. auto.
  Qed.
  (** In the other tables. *)
  Lemma remove_rows (db : database V) t si pi oi dt ocols edt x : str_eqb t TYPES_TABLE = false -> clean_name t ->
    get_expanded_cols (lit "o") (Some dt) = Ok (ocols, edt) -> db t = Some x ->
    (forall c, In c (lit "s" :: lit "p" :: ocols) -> In c (tcols x)) ->
    (forall ws, oi = Some ws -> List.length ws = List.length ocols) ->
    exists c kept,
      construct_remove_condition as_set (IPattern si pi oi) t dt = Ok c
      /\ execute (fst (db_delete t (Some c))) (plookup (snd (db_delete t (Some c)))) db
         = Some (Done (dbset db t (Some (Table (tcols x) kept))) [])
      /\ forall r, In r kept <-> In r (trows x) /\
           ~ (fits_one same si (r (lit "s")) /\ fits_one same pi (r (lit "p")) /\ fits_all same oi (map r ocols)).
  Proof.
    intros Hnt HT Eoc Hx Hcs Hlen.
    assert (exists vc, construct_remove_condition as_set (IPattern si pi oi) t dt
        = Ok (CAnd (as_set (i_conds t (lit "s") si ++ i_conds t (lit "p") pi ++ vc)))
      /\ List.length vc <= 1 /\ Forall flat vc /\ Forall (fun m => Forall clean_name (cond_names m)) vc
      /\ (forall m a k, In m vc -> In (a, k) (cond_cols m) -> a = t /\ In k ocols)
      /\ (forall e : env V, (forall m, In m vc -> meets same e m = true) <-> fits_all same oi (map (e t) ocols)))
      as (vc & Eg & Lvc & Fvc & Nvc & Cvc & Mvc).
    { unfold construct_remove_condition. cbn [i_s i_p i_o]. rewrite Hnt. destruct oi as [ws|].
      - destruct (object_condition_spec t dt ocols edt ws HT Eoc (Hlen ws eq_refl)) as (c & -> & H1 & H2 & H3 & H4).
        exists [c]. split; [reflexivity|]. split; [cbn; lia|]. split; [now constructor|].
        split; [now constructor|]. split.
        + intros m a k [<-|[]]. apply H3.
        + intros e. rewrite meets_cons, meets_nil, H4. unfold fits_all. split; [intros [H _] ws' [= <-]; exact H | intros H; auto].
      - exists []. split; [now rewrite app_nil_r|].
        split; [cbn; lia|]. split; [constructor|]. split; [constructor|]. split; [intros m a k []|].
        intros e. rewrite meets_nil. unfold fits_all. split; [intros _ ws; discriminate | auto]. }
    set (members := i_conds t (lit "s") si ++ i_conds t (lit "p") pi ++ vc) in *.
    destruct (run_delete t members db x (fun r => fits_one same si (r (lit "s")) /\ fits_one same pi (r (lit "p"))
       /\ fits_all same oi (map r ocols))) as (kept & H1 & H2); [exact HT | exact Hx | | | | | |].
    - unfold members. rewrite !app_length. pose proof (i_len t (lit "s") si). pose proof (i_len t (lit "p") pi). lia.
    - repeat (apply Forall_app; split); auto; apply i_flat.
    - repeat (apply Forall_app; split); auto; apply i_names; auto; cln.
    - intros m a k Hm Hak. repeat (apply in_app_or in Hm as [Hm|Hm]).
      + destruct (i_cols _ _ _ _ _ _ Hm Hak) as [-> ->]. split; [reflexivity|]. apply Hcs. cbn [In]. tauto.
      + destruct (i_cols _ _ _ _ _ _ Hm Hak) as [-> ->]. split; [reflexivity|]. apply Hcs. cbn [In]. tauto.
      + destruct (Cvc m a k Hm Hak) as [-> Hk]. split; [reflexivity|]. apply Hcs. now right; right.
    - intros r. unfold members. rewrite !meets_app, !i_meets, Mvc, !row_env_same.
      rewrite (map_ext _ r (row_env_same t r)). reflexivity.
    - exists (CAnd (as_set members)), kept. auto.
  Qed.

  Context (Hsame : comparison same).
  Lemma same_r x y z : same x y = true -> (same x z = true <-> same y z = true).
  Proof. destruct Hsame as [Hs Ht]. intros H. split; intros H'; eauto. Qed.
  (** The row that refers to an object by its index fits the index iff the object fits. *)
  Lemma index_fits (db : database V) c p i v : unique_keys same db -> cuds_indexes same db p i ->
    In c (rows_of db (lit "OSP_V1_CUDS")) -> same v (c (lit "cuds_idx")) = true ->
    (fits_one same i v <-> fits_one same p (c (lit "uid"))).
  Proof.
    intros [Hk _] Hi Hc Hv. unfold fits_one. destruct p as [u|], i as [k|]; [|destruct Hi|destruct Hi|].
    - destruct Hi as (c0 & Hc0 & Hu & Hk0). specialize (Hk c c0 Hc Hc0). destruct Hsame as [Hs Ht].
      split; intros H w [= <-]; specialize (H _ eq_refl).
      + apply (Ht _ (c0 (lit "uid"))); [apply Hk|exact Hu]. apply (Ht _ v); [now apply Hs|]. apply (Ht _ k); [exact H | now apply Hs].
      + apply (Ht _ (c (lit "cuds_idx"))); [exact Hv|]. apply (Ht _ (c0 (lit "cuds_idx"))); [|exact Hk0]. apply Hk.
        apply (Ht _ u); [exact H | now apply Hs].
    - split; intros _ w; discriminate.
  Qed.
  Lemma entity_fits (db : database V) e p i v : unique_keys same db -> entity_indexes same db p i ->
    In e (rows_of db (lit "OSP_V1_ENTITIES")) -> same v (e (lit "entity_idx")) = true ->
    (fits_one same i v <-> fits_two same p (e (lit "ns_idx")) (e (lit "name"))).
  Proof.
    intros [_ Hk] Hi He Hv. unfold fits_one, fits_two. destruct p as [(ns, nm)|], i as [k|]; [|destruct Hi|destruct Hi|].
    - destruct Hi as (e0 & He0 & Hn & Hm & Hk0). specialize (Hk e e0 He He0). destruct Hsame as [Hs Ht].
      split.
      + intros H w1 w2 [= <- <-]; specialize (H _ eq_refl).
        assert (Hx : same (e (lit "entity_idx")) (e0 (lit "entity_idx")) = true).
        { apply (Ht _ v); [now apply Hs|]. apply (Ht _ k); [exact H | now apply Hs]. }
        apply Hk in Hx as [H1 H2]. split; eapply Ht; eauto.
      + intros H w [= <-]. destruct (H _ _ eq_refl) as [H1 H2].
        apply (Ht _ (e (lit "entity_idx"))); [exact Hv|]. apply (Ht _ (e0 (lit "entity_idx"))); [|exact Hk0]. apply Hk.
        split; eapply Ht; eauto.
    - split; [intros _ w1 w2; discriminate | intros _ w; discriminate].
  Qed.
  Lemma rows_dbset (db : database V) t x : rows_of (dbset db t (Some x)) t = trows x.
  Proof. unfold rows_of, dbset. now rewrite str_eqb_refl. Qed.
  Lemma rows_dbset_other (db : database V) t t' x : str_eqb t' t = false -> rows_of (dbset db t (Some x)) t' = rows_of db t'.
  Proof. intros H. unfold rows_of, dbset. now rewrite H. Qed.

  (** DELETE, given the indexes of the components of the pattern: exactly the triples that
      fit the pattern are removed; the other tables stay as they are. *)
  Theorem C69_remove_rels : forall (db : database V) s p o si pi oi, shape db -> unique_keys same db ->
    cuds_indexes same db s si -> entity_indexes same db p pi -> cuds_indexes same db o oi ->
    exists c db',
      construct_remove_condition as_set (IPattern si pi (option_map (fun o => [o]) oi)) (lit "OSP_V1_RELATIONS") XSD_integer = Ok c
      /\ execute (fst (db_delete (lit "OSP_V1_RELATIONS") (Some c))) (plookup (snd (db_delete (lit "OSP_V1_RELATIONS") (Some c)))) db
         = Some (Done db' [])
      /\ (forall t, t <> lit "OSP_V1_RELATIONS" -> db' t = db t)
      /\ shape db'
      /\ forall s' ns nm o', stored_rel same db' s' ns nm o' <-> stored_rel same db s' ns nm o'
           /\ ~ (fits_one same s s' /\ fits_two same p ns nm /\ fits_one same o o').
  Proof.
    intros db s p o si pi oi Hsh Hk Hs Hp Ho. pose proof Hsh as (Hc & He & Hn & Ht & (x & Hx & Hcs)).
    set (T := lit "OSP_V1_RELATIONS") in *.
    destruct (remove_rows db T si pi (option_map (fun o => [o]) oi) XSD_integer [lit "o"] (Some XSD_integer) x)
      as (c & kept & E & Ex & Hkept);
      [reflexivity | unfold T; cln | vm_compute; reflexivity | exact Hx | exact Hcs | |].
    { intros ws. destruct oi; [intros [= <-]; reflexivity | discriminate]. }
    exists c. eexists. split; [exact E|]. split; [exact Ex|].
    assert (Hoth : forall t, t <> T -> dbset db T (Some (Table (tcols x) kept)) t = db t).
    { intros t Hne. unfold dbset. now rewrite (proj2 (str_eqb_neq t T) Hne). }
    split; [exact Hoth|]. split.
    { unfold shape, has_table. rewrite !Hoth by (intros Hq; discriminate Hq). fold T.
      split; [exact Hc|]. split; [exact He|]. split; [exact Hn|]. split; [exact Ht|].
      exists (Table (tcols x) kept). split; [unfold dbset; now rewrite str_eqb_refl | exact Hcs]. }
    assert (HO : forall r, fits_all same (option_map (fun o => [o]) oi) (map r [lit "o"]) <-> fits_one same oi (r (lit "o"))).
    { intros r. unfold fits_all, fits_one. destruct oi as [w|]; cbn [option_map map].
      - split; [intros H w' [= <-]; specialize (H _ eq_refl); inversion H; auto | intros H ws [= <-]; repeat constructor; auto].
      - split; [intros _ w; discriminate | intros _ w; discriminate]. }
    intros s' ns nm o'. unfold stored_rel. fold T. rewrite rows_dbset, !rows_dbset_other by reflexivity. cbn [trows].
    assert (Hr : rows_of db T = trows x) by (unfold rows_of; now rewrite Hx). rewrite Hr.
    split.
    - intros (cc & e & c' & r & H1 & H2 & H3 & H4 & M1 & M2 & M3 & -> & -> & -> & ->).
      apply Hkept in H4 as [H4 Hnot]. split; [exists cc, e, c', r; auto 12|].
      intros (F1 & F2 & F3). apply Hnot. rewrite HO. split; [|split].
      + now apply (index_fits db cc s si).
      + now apply (entity_fits db e p pi).
      + now apply (index_fits db c' o oi).
    - intros [(cc & e & c' & r & H1 & H2 & H3 & H4 & M1 & M2 & M3 & -> & -> & -> & ->) Hnot].
      assert (Hin : In r kept).
      { apply Hkept. split; [exact H4|]. rewrite HO. intros (F1 & F2 & F3). apply Hnot. split; [|split].
        - now apply (index_fits db cc s si (r (lit "s"))).
        - now apply (entity_fits db e p pi (r (lit "p"))).
        - now apply (index_fits db c' o oi (r (lit "o"))). }
      exists cc, e, c', r. auto 12.
  Qed.
  Theorem C69_remove_types : forall (db : database V) s o si pi oi dt, shape db -> unique_keys same db ->
    cuds_indexes same db s si -> entity_indexes same db o oi ->
    exists c db',
      construct_remove_condition as_set (IPattern si pi (option_map (fun o => [o]) oi)) (lit "OSP_V1_TYPES") dt = Ok c
      /\ execute (fst (db_delete (lit "OSP_V1_TYPES") (Some c))) (plookup (snd (db_delete (lit "OSP_V1_TYPES") (Some c)))) db
         = Some (Done db' [])
      /\ (forall t, t <> lit "OSP_V1_TYPES" -> db' t = db t)
      /\ shape db'
      /\ forall s' ns nm, stored_type same db' s' ns nm <-> stored_type same db s' ns nm
           /\ ~ (fits_one same s s' /\ fits_two same o ns nm).
  Proof.
    intros db s o si pi oi dt Hsh Hk Hs Ho. pose proof Hsh as (Hc & He & Hn & (x & Hx & Hcs) & Hrt).
    set (T := lit "OSP_V1_TYPES") in *.
    destruct (remove_types_rows db si pi oi dt x Hx Hcs) as (c & kept & E & Ex & Hkept).
    exists c. eexists. split; [exact E|]. split; [exact Ex|].
    assert (Hoth : forall t, t <> T -> dbset db T (Some (Table (tcols x) kept)) t = db t).
    { intros t Hne. unfold dbset. now rewrite (proj2 (str_eqb_neq t T) Hne). }
    split; [exact Hoth|]. split.
    { unfold shape, has_table. fold T. rewrite !Hoth by (intros Hq; discriminate Hq).
      split; [exact Hc|]. split; [exact He|]. split; [exact Hn|]. split; [|exact Hrt].
      exists (Table (tcols x) kept). split; [unfold dbset; now rewrite str_eqb_refl | exact Hcs]. }
    intros s' ns nm. unfold stored_type. fold T. rewrite rows_dbset, !rows_dbset_other by reflexivity. cbn [trows].
    assert (Hr : rows_of db T = trows x) by (unfold rows_of; now rewrite Hx). rewrite Hr.
    split.
    - intros (cc & e & r & H1 & H2 & H4 & M1 & M2 & -> & -> & ->).
      apply Hkept in H4 as [H4 Hnot]. split; [exists cc, e, r; auto 12|].
      intros (F1 & F2). apply Hnot. split.
      + now apply (index_fits db cc s si).
      + now apply (entity_fits db e o oi).
    - intros [(cc & e & r & H1 & H2 & H4 & M1 & M2 & -> & -> & ->) Hnot].
      assert (Hin : In r kept).
      { apply Hkept. split; [exact H4|]. intros (F1 & F2). apply Hnot. split.
        - now apply (index_fits db cc s si (r (lit "s"))).
        - now apply (entity_fits db e o oi (r (lit "o"))). }
      exists cc, e, r. auto 12.
  Qed.
  Theorem C69_remove_data : forall (db : database V) s p o si pi t dt ocols edt, shape db -> unique_keys same db ->
    startswith DATA_TABLE_PREFIX t = true -> clean_name t ->
    get_expanded_cols (lit "o") (Some dt) = Ok (ocols, edt) -> has_table db t (lit "s" :: lit "p" :: ocols) ->
    (forall ws, o = Some ws -> List.length ws = List.length ocols) ->
    cuds_indexes same db s si -> entity_indexes same db p pi ->
    exists c db',
      construct_remove_condition as_set (IPattern si pi o) t dt = Ok c
      /\ execute (fst (db_delete t (Some c))) (plookup (snd (db_delete t (Some c)))) db = Some (Done db' [])
      /\ (forall t', t' <> t -> db' t' = db t')
      /\ shape db' /\ has_table db' t (lit "s" :: lit "p" :: ocols)
      /\ forall s' ns nm os, stored_data same db' t ocols s' ns nm os <-> stored_data same db t ocols s' ns nm os
           /\ ~ (fits_one same s s' /\ fits_two same p ns nm /\ fits_all same o os).
  Proof.
    intros db s p o si pi T dt ocols edt Hsh Hk Hpre HT Eoc (x & Hx & Hcs) Hlen Hs Hp.
    assert (Hne : str_eqb T TYPES_TABLE = false /\ T <> lit "OSP_V1_RELATIONS" /\ T <> lit "OSP_V1_TYPES"
       /\ T <> lit "OSP_V1_CUDS" /\ T <> lit "OSP_V1_ENTITIES" /\ T <> lit "OSP_V1_NAMESPACES").
    { apply startswith_iff in Hpre as (u & ->). repeat split; intros Hq; discriminate Hq. }
    destruct Hne as (N0 & N1 & N2 & N3 & N4 & N5).
    destruct (remove_rows db T si pi o dt ocols edt x) as (c & kept & E & Ex & Hkept); [auto..|].
    exists c. eexists. split; [exact E|]. split; [exact Ex|].
    assert (Hoth : forall t, t <> T -> dbset db T (Some (Table (tcols x) kept)) t = db t).
    { intros t Hne. unfold dbset. now rewrite (proj2 (str_eqb_neq t T) Hne). }
    split; [exact Hoth|]. split.
    { unfold shape, has_table. rewrite !Hoth by auto. exact Hsh. }
    split.
    { exists (Table (tcols x) kept). split; [unfold dbset; now rewrite str_eqb_refl | exact Hcs]. }
    intros s' ns nm os. unfold stored_data. rewrite rows_dbset, !rows_dbset_other by (apply str_eqb_neq; auto). cbn [trows].
    assert (Hr : rows_of db T = trows x) by (unfold rows_of; now rewrite Hx). rewrite Hr.
    split.
    - intros (cc & e & r & H1 & H2 & H4 & M1 & M2 & -> & -> & -> & ->).
      apply Hkept in H4 as [H4 Hnot]. split; [exists cc, e, r; auto 12|].
      intros (F1 & F2 & F3). apply Hnot. split; [|split; [|exact F3]].
      + now apply (index_fits db cc s si).
      + now apply (entity_fits db e p pi).
    - intros [(cc & e & r & H1 & H2 & H4 & M1 & M2 & -> & -> & -> & ->) Hnot].
      assert (Hin : In r kept).
      { apply Hkept. split; [exact H4|]. intros (F1 & F2 & F3). apply Hnot. split; [|split; [|exact F3]].
        - now apply (index_fits db cc s si (r (lit "s"))).
        - now apply (entity_fits db e p pi (r (lit "p"))). }
      exists cc, e, r. auto 12.
  Qed.

  (** ** INSERT *)
  (** What the database stores of an inserted row agrees with the given columns. *)
  Definition keeps (t : str) (cols : list str) : Prop :=
    forall rows r r', admit_row t rows r = Some r' -> forall c, In c cols -> r' c = r c.
  Lemma run_insert (db : database V) t cols vals x : clean_name t -> Forall clean_name cols -> NoDup cols -> cols <> [] ->
    List.length cols = List.length vals -> db t = Some x -> (forall c, In c cols -> In c (tcols x)) -> keeps t cols ->
    execute (fst (db_insert t cols vals)) (plookup (snd (db_insert t cols vals))) db = Some UniqueError
    \/ exists r, execute (fst (db_insert t cols vals)) (plookup (snd (db_insert t cols vals))) db
       = Some (Done (dbset db t (Some (Table (tcols x) (trows x ++ [r])))) []) /\ map r cols = vals.
  Proof.
    intros Ht Hc Hnd Hne Hl Hx Hcs Hk. rewrite (C67_insert null same admit_row t cols vals db x) by auto.
    destruct (admit_row t (trows x) _) as [r|] eqn:Ea; [right|now left]. exists r. split; [reflexivity|].
    pose proof (C67_row_written cols vals (fun _ => null) Hnd) as [Hw _].
    specialize (Hk _ _ _ Ea).
    rewrite (map_ext_in _ _ _ Hk). clear -Hw Hl. set (f := set_columns cols vals (fun _ => null)) in *. clearbody f.
    revert vals Hl Hw. induction cols as [|c cols IH]; intros [|v vals] Hl Hw; try discriminate; [reflexivity|].
    cbn [map]. f_equal; [exact (Hw 0 c v eq_refl eq_refl)|]. apply IH; [cbn in Hl; lia|].
    intros i c' v' H1 H2. exact (Hw (S i) c' v' H1 H2).
  Qed.
  Lemma index_known (db : database V) c u i v : unique_keys same db -> cuds_index same db u i ->
    In c (rows_of db (lit "OSP_V1_CUDS")) -> v = i ->
    (same v (c (lit "cuds_idx")) = true <-> same (c (lit "uid")) u = true).
  Proof.
    intros Hk (c0 & Hc0 & Hu & Hi) Hc ->. destruct Hk as [Hk _]. specialize (Hk c c0 Hc Hc0). destruct Hsame as [Hs Ht].
    split; intros H.
    - apply (Ht _ (c0 (lit "uid"))); [|exact Hu]. apply Hk. apply (Ht _ i); auto.
    - apply (Ht _ (c0 (lit "cuds_idx"))); [now apply Hs|]. apply Hs, Hk. apply (Ht _ u); auto.
  Qed.
  Lemma entity_known (db : database V) e ns nm i v : unique_keys same db -> entity_index same db ns nm i ->
    In e (rows_of db (lit "OSP_V1_ENTITIES")) -> v = i ->
    (same v (e (lit "entity_idx")) = true <-> same (e (lit "ns_idx")) ns = true /\ same (e (lit "name")) nm = true).
  Proof.
    intros Hk (e0 & He0 & Hn & Hm & Hi) He ->. destruct Hk as [_ Hk]. specialize (Hk e e0 He He0). destruct Hsame as [Hs Ht].
    split.
    - intros H. assert (Hx : same (e (lit "entity_idx")) (e0 (lit "entity_idx")) = true) by (apply (Ht _ i); auto).
      apply Hk in Hx as [H1 H2]. split; eapply Ht; eauto.
    - intros [H1 H2]. apply (Ht _ (e0 (lit "entity_idx"))); [now apply Hs|]. apply Hs, Hk. split; eapply Ht; eauto.
  Qed.

  (** INSERT, given the indexes of the components: the triple is added (a row with the same
      key is a constraint error), nothing else changes. *)
  Theorem C69_add_rel : forall (db : database V) s ns nm o si pi oi, shape db -> unique_keys same db ->
    cuds_index same db s si -> entity_index same db ns nm pi -> cuds_index same db o oi ->
    keeps (lit "OSP_V1_RELATIONS") [lit "s"; lit "p"; lit "o"] ->
    exists cols, add_columns (lit "OSP_V1_RELATIONS") XSD_integer = Ok cols /\
    let stm := db_insert (lit "OSP_V1_RELATIONS") cols [si; pi; oi] in
    execute (fst stm) (plookup (snd stm)) db = Some UniqueError
    \/ exists db', execute (fst stm) (plookup (snd stm)) db = Some (Done db' [])
      /\ (forall t, t <> lit "OSP_V1_RELATIONS" -> db' t = db t) /\ shape db'
      /\ forall s' ns' nm' o', stored_rel same db' s' ns' nm' o' <-> stored_rel same db s' ns' nm' o'
           \/ known_cuds db s' /\ known_entity db ns' nm' /\ known_cuds db o'
              /\ same s' s = true /\ same ns' ns = true /\ same nm' nm = true /\ same o' o = true.
  Proof.
    intros db s ns nm o si pi oi Hsh Hk Hs Hp Ho Hkeep. pose proof Hsh as (Hc & He & Hn & Ht & (x & Hx & Hcs)).
    set (T := lit "OSP_V1_RELATIONS") in *. exists [lit "s"; lit "p"; lit "o"].
    split; [vm_compute; reflexivity|]. cbv zeta.
    destruct (run_insert db T [lit "s"; lit "p"; lit "o"] [si; pi; oi] x) as [E|(r & E & Hr)];
      [unfold T; cln | clean_all | | discriminate | reflexivity | exact Hx | exact Hcs | exact Hkeep | now left | right].
    { repeat constructor; cbn [In]; intuition discriminate. }
    eexists. split; [exact E|].
    assert (Hoth : forall y t, t <> T -> dbset db T y t = db t).
    { intros y t Hne. unfold dbset. now rewrite (proj2 (str_eqb_neq t T) Hne). }
    split; [intros t Hne; now apply Hoth|]. split.
    { unfold shape, has_table. rewrite !Hoth by (intros Hq; discriminate Hq). fold T.
      split; [exact Hc|]. split; [exact He|]. split; [exact Hn|]. split; [exact Ht|].
      eexists. split; [unfold dbset; now rewrite str_eqb_refl | exact Hcs]. }
    intros s' ns' nm' o'. unfold stored_rel. fold T. rewrite rows_dbset, !rows_dbset_other by reflexivity. cbn [trows].
    assert (Hrx : rows_of db T = trows x) by (unfold rows_of; now rewrite Hx). rewrite Hrx.
    cbn [map] in Hr. injection Hr as R1 R2 R3.
    split.
    - intros (c & e & c' & r' & H1 & H2 & H3 & H4 & M1 & M2 & M3 & -> & -> & -> & ->).
      apply in_app_or in H4 as [H4|[<-|[]]]; [left; exists c, e, c', r'; auto 12|]. right.
      split; [exists c; auto|]. split; [exists e; auto|]. split; [exists c'; auto|].
      split; [now apply (index_known db c s si _ Hk Hs H1 R1)|].
      apply (entity_known db e ns nm pi _ Hk Hp H2 R2) in M2 as [Y1 Y2]. split; [exact Y1|]. split; [exact Y2|].
      now apply (index_known db c' o oi _ Hk Ho H3 R3).
    - intros [(c & e & c' & r' & H1 & H2 & H3 & H4 & M1 & M2 & M3 & -> & -> & -> & ->)
             |((c & H1 & ->) & (e & H2 & -> & ->) & (c' & H3 & ->) & M1 & M2 & M3 & M4)].
      + assert (Hin : In r' (trows x ++ [r])) by (apply in_or_app; auto). exists c, e, c', r'. auto 12.
      + assert (Hin : In r (trows x ++ [r])) by (apply in_or_app; right; now left).
        pose proof (proj2 (index_known db c s si _ Hk Hs H1 R1) M1).
        pose proof (proj2 (entity_known db e ns nm pi _ Hk Hp H2 R2) (conj M2 M3)).
        pose proof (proj2 (index_known db c' o oi _ Hk Ho H3 R3) M4).
        exists c, e, c', r. auto 12.
  Qed.
  Theorem C69_add_type : forall (db : database V) s ns nm si oi dt, shape db -> unique_keys same db ->
    cuds_index same db s si -> entity_index same db ns nm oi ->
    keeps (lit "OSP_V1_TYPES") [lit "s"; lit "o"] ->
    exists cols, add_columns (lit "OSP_V1_TYPES") dt = Ok cols /\
    let stm := db_insert (lit "OSP_V1_TYPES") cols [si; oi] in
    execute (fst stm) (plookup (snd stm)) db = Some UniqueError
    \/ exists db', execute (fst stm) (plookup (snd stm)) db = Some (Done db' [])
      /\ (forall t, t <> lit "OSP_V1_TYPES" -> db' t = db t) /\ shape db'
      /\ forall s' ns' nm', stored_type same db' s' ns' nm' <-> stored_type same db s' ns' nm'
           \/ known_cuds db s' /\ known_entity db ns' nm'
              /\ same s' s = true /\ same ns' ns = true /\ same nm' nm = true.
  Proof.
    intros db s ns nm si oi dt Hsh Hk Hs Hp Hkeep. pose proof Hsh as (Hc & He & Hn & (x & Hx & Hcs) & Hrt).
    set (T := lit "OSP_V1_TYPES") in *. exists [lit "s"; lit "o"].
    split; [reflexivity|]. cbv zeta.
    destruct (run_insert db T [lit "s"; lit "o"] [si; oi] x) as [E|(r & E & Hr)];
      [unfold T; cln | clean_all | | discriminate | reflexivity | exact Hx | exact Hcs | exact Hkeep | now left | right].
    { repeat constructor; cbn [In]; intuition discriminate. }
    eexists. split; [exact E|].
    assert (Hoth : forall y t, t <> T -> dbset db T y t = db t).
    { intros y t Hne. unfold dbset. now rewrite (proj2 (str_eqb_neq t T) Hne). }
    split; [intros t Hne; now apply Hoth|]. split.
    { unfold shape, has_table. fold T. rewrite !Hoth by (intros Hq; discriminate Hq).
      split; [exact Hc|]. split; [exact He|]. split; [exact Hn|]. split; [|exact Hrt].
      eexists. split; [unfold dbset; now rewrite str_eqb_refl | exact Hcs]. }
    intros s' ns' nm'. unfold stored_type. fold T. rewrite rows_dbset, !rows_dbset_other by reflexivity. cbn [trows].
    assert (Hrx : rows_of db T = trows x) by (unfold rows_of; now rewrite Hx). rewrite Hrx.
    cbn [map] in Hr. injection Hr as R1 R2.
    split.
    - intros (c & e & r' & H1 & H2 & H4 & M1 & M2 & -> & -> & ->).
      apply in_app_or in H4 as [H4|[<-|[]]]; [left; exists c, e, r'; auto 12|]. right.
      split; [exists c; auto|]. split; [exists e; auto|].
      split; [now apply (index_known db c s si _ Hk Hs H1 R1)|].
      now apply (entity_known db e ns nm oi _ Hk Hp H2 R2) in M2.
    - intros [(c & e & r' & H1 & H2 & H4 & M1 & M2 & -> & -> & ->)
             |((c & H1 & ->) & (e & H2 & -> & ->) & M1 & M2 & M3)].
      + assert (Hin : In r' (trows x ++ [r])) by (apply in_or_app; auto). exists c, e, r'. auto 12.
      + assert (Hin : In r (trows x ++ [r])) by (apply in_or_app; right; now left).
        pose proof (proj2 (index_known db c s si _ Hk Hs H1 R1) M1).
        pose proof (proj2 (entity_known db e ns nm oi _ Hk Hp H2 R2) (conj M2 M3)).
        exists c, e, r. auto 12.
  Qed.
  Theorem C69_add_data : forall (db : database V) s ns nm os si pi t dt ocols edt, shape db -> unique_keys same db ->
    startswith DATA_TABLE_PREFIX t = true -> clean_name t ->
    get_expanded_cols (lit "o") (Some dt) = Ok (ocols, edt) -> has_table db t (lit "s" :: lit "p" :: ocols) ->
    List.length os = List.length ocols ->
    cuds_index same db s si -> entity_index same db ns nm pi ->
    keeps t (lit "s" :: lit "p" :: ocols) ->
    exists cols, add_columns t dt = Ok cols /\
    let stm := db_insert t cols (si :: pi :: os) in
    execute (fst stm) (plookup (snd stm)) db = Some UniqueError
    \/ exists db', execute (fst stm) (plookup (snd stm)) db = Some (Done db' [])
      /\ (forall t', t' <> t -> db' t' = db t') /\ shape db' /\ has_table db' t (lit "s" :: lit "p" :: ocols)
      /\ forall s' ns' nm' os', stored_data same db' t ocols s' ns' nm' os' <-> stored_data same db t ocols s' ns' nm' os'
           \/ known_cuds db s' /\ known_entity db ns' nm'
              /\ same s' s = true /\ same ns' ns = true /\ same nm' nm = true /\ os' = os.
  Proof.
    intros db s ns nm os si pi T dt ocols edt Hsh Hk Hpre HT Eoc (x & Hx & Hcs) Hlen Hs Hp Hkeep.
    assert (Hne : str_eqb T TYPES_TABLE = false /\ T <> lit "OSP_V1_RELATIONS" /\ T <> lit "OSP_V1_TYPES"
       /\ T <> lit "OSP_V1_CUDS" /\ T <> lit "OSP_V1_ENTITIES" /\ T <> lit "OSP_V1_NAMESPACES").
    { apply startswith_iff in Hpre as (u & ->). repeat split; intros Hq; discriminate Hq. }
    destruct Hne as (N0 & N1 & N2 & N3 & N4 & N5).
    destruct (expanded_cols_clean _ _ _ Eoc) as (Hcl & Hns & Hnp). destruct (expanded_cols_form _ _ _ Eoc) as (_ & Hnd & _).
    exists (lit "s" :: lit "p" :: ocols). split; [unfold add_columns; rewrite N0, Eoc; reflexivity|]. cbv zeta.
    destruct (run_insert db T (lit "s" :: lit "p" :: ocols) (si :: pi :: os) x) as [E|(r & E & Hr)];
      [exact HT | | | discriminate | cbn; lia | exact Hx | exact Hcs | exact Hkeep | now left | right].
    { apply Forall_cons; [cln|]. apply Forall_cons; [cln | exact Hcl]. }
    { constructor; [|constructor; auto]. intros [Hq|Hq]; [discriminate Hq | auto]. }
    eexists. split; [exact E|].
    assert (Hoth : forall y t, t <> T -> dbset db T y t = db t).
    { intros y t Hne. unfold dbset. now rewrite (proj2 (str_eqb_neq t T) Hne). }
    split; [intros t Hne; now apply Hoth|]. split.
    { unfold shape, has_table. rewrite !Hoth by auto. exact Hsh. }
    split.
    { eexists. split; [unfold dbset; now rewrite str_eqb_refl | exact Hcs]. }
    intros s' ns' nm' os'. unfold stored_data. rewrite rows_dbset, !rows_dbset_other by (apply str_eqb_neq; auto). cbn [trows].
    assert (Hrx : rows_of db T = trows x) by (unfold rows_of; now rewrite Hx). rewrite Hrx.
    cbn [map] in Hr. injection Hr as R1 R2 R3.
    split.
    - intros (c & e & r' & H1 & H2 & H4 & M1 & M2 & -> & -> & -> & ->).
      apply in_app_or in H4 as [H4|[<-|[]]]; [left; exists c, e, r'; auto 12|]. right.
      split; [exists c; auto|]. split; [exists e; auto|].
      split; [now apply (index_known db c s si _ Hk Hs H1 R1)|].
      apply (entity_known db e ns nm pi _ Hk Hp H2 R2) in M2 as [Y1 Y2]. auto.
    - intros [(c & e & r' & H1 & H2 & H4 & M1 & M2 & -> & -> & -> & ->)
             |((c & H1 & ->) & (e & H2 & -> & ->) & M1 & M2 & M3 & ->)].
      + assert (Hin : In r' (trows x ++ [r])) by (apply in_or_app; auto). exists c, e, r'. auto 12.
      + assert (Hin : In r (trows x ++ [r])) by (apply in_or_app; right; now left).
        pose proof (proj2 (index_known db c s si _ Hk Hs H1 R1) M1).
        pose proof (proj2 (entity_known db e ns nm pi _ Hk Hp H2 R2) (conj M2 M3)).
        exists c, e, r. auto 12.
  Qed.

  (** ** The indexes *)
  Lemma run_lookup (db : database V) t cols c x : clean_name t -> Forall clean_name cols -> cols <> [] ->
    db t = Some x -> (forall k, In k cols -> In k (tcols x)) -> Forall clean_name (opt_names c) ->
    about t x c -> opt_narrow c ->
    let q := q_where as_set (q_new t cols None) c in
    exists rows, execute (fst (db_select q)) (plookup (snd (db_select q))) db = Some (Done db rows)
      /\ forall y, In y rows <-> exists r, In r (trows x) /\ meets_opt same (row_env null t r) c = true /\ y = map r cols.
  Proof.
    intros Ht Hc Hne Hx Hcs Hn Ha Hnar q.
    assert (Hq : q = Query [(t, t, cols)] c) by (destruct c; reflexivity).
    assert (Hqc : q_columns q = map (fun c => (t, c)) cols) by (rewrite Hq; cbn; now rewrite app_nil_r).
    eexists. split.
    - apply (C67_select null same admit_row as_set); [apply b_where; apply b_new | | | |].
      + rewrite Hq. unfold query_names. cbn [q_parts q_cond flat_map]. rewrite app_nil_r. apply Forall_app. split; [|exact Hn].
        constructor; [exact Ht|]. constructor; [exact Ht | exact Hc].
      + rewrite Hqc. destruct cols; [congruence | discriminate].
      + rewrite Hq. split.
        * intros a t' cs [[= <- <- <-]|[]]. eauto.
        * intros a k Hin. destruct (Ha a k Hin) as [-> Hk]. exists t, cols, x. split; [now left | auto].
      + rewrite Hq. exact Hnar.
    - intros y. unfold query_answer. rewrite Hqc, Hq. cbn [q_parts q_cond map]. rewrite in_map_iff.
      assert (Hr : rows_of db t = trows x) by (unfold rows_of; now rewrite Hx). rewrite Hr. split.
      + intros (e & <- & He). apply filter_In in He as [He Hm]. apply in_product in He as (r & e' & Hin & [<-|[]] & ->).
        exists r. split; [exact Hin|]. split; [exact Hm|]. rewrite map_map. apply map_ext. intros k. apply bind_same.
      + intros (r & Hin & Hm & ->). exists (row_env null t r). split.
        * rewrite map_map. apply map_ext. intros k. apply bind_same.
        * apply filter_In. split; [|exact Hm]. apply in_product. exists r, (fun _ _ => null). split; [exact Hin|].
          split; [now left | reflexivity].
  Qed.

  (** The index generated by the database for a new row is none of those in use. *)
  Definition generates (t i : str) : Prop :=
    forall rows r r', admit_row t rows r = Some r' ->
      same (r' i) (r' i) = true /\ forall q, In q rows -> same (q i) (r' i) = false.

  Lemma run_insert' (db : database V) t cols vals x : clean_name t -> Forall clean_name cols -> NoDup cols -> cols <> [] ->
    List.length cols = List.length vals -> db t = Some x -> (forall c, In c cols -> In c (tcols x)) -> keeps t cols ->
    execute (fst (db_insert t cols vals)) (plookup (snd (db_insert t cols vals))) db = Some UniqueError
    \/ exists r0 r, execute (fst (db_insert t cols vals)) (plookup (snd (db_insert t cols vals))) db
       = Some (Done (dbset db t (Some (Table (tcols x) (trows x ++ [r])))) []) /\ map r cols = vals
       /\ admit_row t (trows x) r0 = Some r.
  Proof.
    intros Ht Hc Hnd Hne Hl Hx Hcs Hk.
    destruct (run_insert db t cols vals x) as [E|(r & E & Hr)]; auto. right.
    pose proof (C67_insert null same admit_row t cols vals db x Ht Hc Hne Hl Hx Hcs) as E'. rewrite E in E'.
    destruct (admit_row t (trows x) (set_columns cols vals (fun _ => null))) as [r'|] eqn:Ea; [|discriminate].
    exists (set_columns cols vals (fun _ => null)), r. split; [exact E|]. split; [exact Hr|]. rewrite Ea. f_equal.
    injection E' as Ed. assert (Et : dbset db t (Some (Table (tcols x) (trows x ++ [r]))) t
      = dbset db t (Some (Table (tcols x) (trows x ++ [r']))) t) by now rewrite Ed.
    unfold dbset in Et. rewrite str_eqb_refl in Et. injection Et as Et. now apply app_inv_head in Et; injection Et as ->.
  Qed.

  (** A new row under an unused index changes no triple. *)
  Lemma new_index_triples (db : database V) t0 i0 x r :
    (t0, i0) = (lit "OSP_V1_CUDS", lit "cuds_idx") \/ (t0, i0) = (lit "OSP_V1_ENTITIES", lit "entity_idx") ->
    db t0 = Some x -> (forall q, In q (trows x) -> same (q i0) (r i0) = false) ->
    same_triples same db (dbset db t0 (Some (Table (tcols x) (trows x ++ [r])))).
  Proof.
    intros Ht Hx Hf. set (db' := dbset _ _ _).
    assert (Hin : forall t q, In q (rows_of db t) -> In q (rows_of db' t)).
    { intros t q Hq. unfold rows_of, db', dbset. destruct (str_eqb t t0) eqn:E; [|exact Hq]. apply str_eqb_eq in E. subst t.
      cbn [trows]. apply in_or_app. left. unfold rows_of in Hq. now rewrite Hx in Hq. }
    assert (Hsm : forall t, t <> t0 -> rows_of db' t = rows_of db t).
    { intros t Hne. apply rows_dbset_other. now apply str_eqb_neq. }
    assert (Hback : forall t (ks : list (str * (str * str))), refers same db t ks -> forall q k t' i c, In q (rows_of db t) ->
       (i = i0 \/ t' <> t0) -> In (k, (t', i)) ks ->
       In c (rows_of db' t') -> same (q k) (c i) = true -> In c (rows_of db t')).
    { intros t ks Hrf q k t' i c Hq Hi Hk Hc Hsc. destruct (str_eqb t' t0) eqn:E.
      - apply str_eqb_eq in E. subst t'. destruct Hi as [-> |Hi]; [|congruence].
        unfold db' in Hc. rewrite rows_dbset in Hc. cbn [trows] in Hc. unfold rows_of. rewrite Hx.
        apply in_app_or in Hc as [Hc|[<-|[]]]; [exact Hc|]. exfalso.
        destruct (Hrf q k t0 i0 Hq Hk) as (c0 & Hc0 & Hs0). unfold rows_of in Hc0. rewrite Hx in Hc0.
        rewrite <- (Hf c0 Hc0) in *. destruct Hsame as [Hs Htr].
        assert (same (c0 i0) (r i0) = true) by (apply (Htr _ (q k)); auto). rewrite (Hf c0 Hc0) in H. discriminate.
      - rewrite <- (Hsm t'); [exact Hc|]. now apply str_eqb_neq. }
    assert (Hrf : forall t ks, t <> t0 -> refers same db t ks -> refers same db' t ks).
    { intros t ks Hne H q k t' i Hq Hk. rewrite Hsm in Hq by exact Hne. destruct (H q k t' i Hq Hk) as (c & Hc & Hsc). eauto. }
    assert (Hidx : (lit "cuds_idx" = i0 \/ lit "OSP_V1_CUDS" <> t0) /\ (lit "entity_idx" = i0 \/ lit "OSP_V1_ENTITIES" <> t0)).
    { destruct Ht as [E|E]; injection E as -> ->; split; (left; reflexivity) || (right; intros Hq; discriminate Hq). }
    destruct Hidx as [HiC HiE].
    assert (Hn : forall t, startswith DATA_TABLE_PREFIX t = true \/ t = lit "OSP_V1_RELATIONS" \/ t = lit "OSP_V1_TYPES" -> t <> t0).
    { intros t H Hq. destruct Ht as [E|E]; injection E as -> ->; subst t;
        (destruct H as [H|[H|H]]; [apply startswith_iff in H as (u & H); discriminate H | discriminate H | discriminate H]). }
    split; [|split].
    - intros H. assert (Hne : lit "OSP_V1_RELATIONS" <> t0) by (apply Hn; auto). split; [now apply Hrf|].
      intros s ns nm o. unfold stored_rel. rewrite (Hsm _ Hne). split.
      + intros (c & e & c' & q & H1 & H2 & H3 & H4 & M1 & M2 & M3 & R).
        apply (Hback _ _ H q (lit "s") _ (lit "cuds_idx")) in H1; [|auto|auto|cbn [rel_refs In]; auto|auto].
        apply (Hback _ _ H q (lit "p") _ (lit "entity_idx")) in H2; [|auto|auto|cbn [rel_refs In]; auto|auto].
        apply (Hback _ _ H q (lit "o") _ (lit "cuds_idx")) in H3; [|auto|auto|cbn [rel_refs In]; auto|auto].
        exists c, e, c', q. auto 12.
      + intros (c & e & c' & q & H1 & H2 & H3 & R). exists c, e, c', q.
        split; [now apply Hin|]. split; [now apply Hin|]. split; [now apply Hin | exact R].
    - intros H. assert (Hne : lit "OSP_V1_TYPES" <> t0) by (apply Hn; auto). split; [now apply Hrf|].
      intros s ns nm. unfold stored_type. rewrite (Hsm _ Hne). split.
      + intros (c & e & q & H1 & H2 & H4 & M1 & M2 & R).
        apply (Hback _ _ H q (lit "s") _ (lit "cuds_idx")) in H1; [|auto|auto|cbn [type_refs In]; auto|auto].
        apply (Hback _ _ H q (lit "o") _ (lit "entity_idx")) in H2; [|auto|auto|cbn [type_refs In]; auto|auto].
        exists c, e, q. auto 12.
      + intros (c & e & q & H1 & H2 & R). exists c, e, q. split; [now apply Hin|]. split; [now apply Hin | exact R].
    - intros t ocols Hpre H. assert (Hne : t <> t0) by (apply Hn; auto). split; [now apply Hrf|].
      intros s ns nm os. unfold stored_data. rewrite (Hsm _ Hne). split.
      + intros (c & e & q & H1 & H2 & H4 & M1 & M2 & R).
        apply (Hback _ _ H q (lit "s") _ (lit "cuds_idx")) in H1; [|auto|auto|cbn [data_refs In]; auto|auto].
        apply (Hback _ _ H q (lit "p") _ (lit "entity_idx")) in H2; [|auto|auto|cbn [data_refs In]; auto|auto].
        exists c, e, q. auto 12.
      + intros (c & e & q & H1 & H2 & R). exists c, e, q. split; [now apply Hin|]. split; [now apply Hin | exact R].
  Qed.

  (** [_get_cuds_idx]: the first row of the lookup gives the index of the object; if there
      is none the object is unknown and is inserted under a new index, and no triple
      changes. *)
  Theorem C69_cuds_index : forall (db : database V) u, shape db -> unique_keys same db -> same u u = true ->
    keeps (lit "OSP_V1_CUDS") [lit "uid"] -> generates (lit "OSP_V1_CUDS") (lit "cuds_idx") ->
    let q := cuds_lookup as_set u in
    let stm := db_insert (lit "OSP_V1_CUDS") [lit "uid"] [u] in
    exists rows, execute (fst (db_select q)) (plookup (snd (db_select q))) db = Some (Done db rows) /\
    match rows with
    | [] => (forall i, ~ cuds_index same db u i) /\
        (execute (fst stm) (plookup (snd stm)) db = Some UniqueError
         \/ exists db' r, execute (fst stm) (plookup (snd stm)) db = Some (Done db' [])
              /\ rows_of db' (lit "OSP_V1_CUDS") = rows_of db (lit "OSP_V1_CUDS") ++ [r]
              /\ (forall t, t <> lit "OSP_V1_CUDS" -> db' t = db t)
              /\ shape db' /\ unique_keys same db' /\ cuds_index same db' u (r (lit "cuds_idx"))
              /\ same_triples same db db')
    | y :: _ => exists i u', y = [i; u'] /\ cuds_index same db u i
    end.
  Proof.
    intros db u Hsh Hk Hu Hkeep Hgen q stm. pose proof Hsh as ((x & Hx & Hcs) & He & Hn & Ht & Hr).
    set (T := lit "OSP_V1_CUDS") in *.
    assert (Hrx : rows_of db T = trows x) by (unfold rows_of; now rewrite Hx).
    destruct (run_lookup db T [lit "cuds_idx"; lit "uid"] (Some (CEq T (lit "uid") u (Some (lit "UUID")))) x) as (rows & E & Hrows);
      [unfold T; cln | clean_all | discriminate | exact Hx | exact Hcs | | | exact I |].
    { cbn [opt_names cond_names]. clean_all. }
    { intros a k [[= <- <-]|[]]. split; [reflexivity|]. apply Hcs. cbn [In]; auto. }
    exists rows. split; [exact E|]. cbn [meets_opt meets] in Hrows. setoid_rewrite row_env_same in Hrows.
    destruct Hsame as [Hs Htr]. destruct rows as [|y rows].
    - assert (Hun : forall c, In c (trows x) -> same (c (lit "uid")) u = false).
      { intros c Hc. destruct (same (c (lit "uid")) u) eqn:Ec; [|reflexivity]. exfalso.
        apply (proj2 (Hrows (map c [lit "cuds_idx"; lit "uid"]))). exists c. auto. }
      split.
      { intros i (c & Hc & Hcu & _). fold T in Hc. rewrite Hrx in Hc. rewrite (Hun c Hc) in Hcu. discriminate. }
      destruct (run_insert' db T [lit "uid"] [u] x) as [Ei|(r0 & r & Ei & Hm & Ha)];
        [unfold T; cln | clean_all | | discriminate | reflexivity | exact Hx | | exact Hkeep | now left | right].
      { repeat constructor; intros []. }
      { intros c [<-|[]]. apply Hcs. cbn [In]; auto. }
      destruct (Hgen _ _ _ Ha) as [Hrr Hfresh]. cbn [map] in Hm. injection Hm as Hm.
      eexists. exists r. split; [exact Ei|]. rewrite rows_dbset. cbn [trows].
      split; [fold T; now rewrite Hrx|].
      assert (Hoth : forall y t, t <> T -> dbset db T y t = db t).
      { intros y t Hne. unfold dbset. now rewrite (proj2 (str_eqb_neq t T) Hne). }
      split; [intros t Hne; now apply Hoth|]. split.
      { unfold shape, has_table. fold T. rewrite (Hoth _ (lit "OSP_V1_ENTITIES")), (Hoth _ (lit "OSP_V1_NAMESPACES")), (Hoth _ (lit "OSP_V1_TYPES")), (Hoth _ (lit "OSP_V1_RELATIONS")) by (intros Hq; discriminate Hq).
        split; [|auto]. eexists. split; [unfold dbset; now rewrite str_eqb_refl | exact Hcs]. }
      split; [|split].
      + destruct Hk as [Hk1 Hk2]. split; [|rewrite rows_dbset_other by reflexivity; exact Hk2].
        fold T in Hk1 |- *. rewrite rows_dbset. cbn [trows]. rewrite Hrx in Hk1.
        assert (Huid : forall c, In c (trows x) -> same (c (lit "uid")) (r (lit "uid")) = false) by (intros c Hc; rewrite Hm; auto).
        assert (Hsymf : forall a b, same a b = false -> same b a = false).
        { intros a b Hab. destruct (same b a) eqn:Eb; [|reflexivity]. apply Hs in Eb. congruence. }
        intros c c' Hc Hc'. apply in_app_or in Hc as [Hc|[<-|[]]]; apply in_app_or in Hc' as [Hc'|[<-|[]]].
        * auto.
        * rewrite (Huid c Hc), (Hfresh c Hc). reflexivity.
        * rewrite (Hsymf _ _ (Huid c' Hc')), (Hsymf _ _ (Hfresh c' Hc')). reflexivity.
        * rewrite Hm, Hu, Hrr. reflexivity.
      + exists r. rewrite rows_dbset. cbn [trows]. split; [apply in_or_app; right; now left|]. rewrite Hm. auto.
      + apply (new_index_triples db T (lit "cuds_idx") x r); [now left | exact Hx | exact Hfresh].
    - destruct (proj1 (Hrows y) (or_introl eq_refl)) as (c & Hc & Hcu & ->).
      exists (c (lit "cuds_idx")), (c (lit "uid")). split; [reflexivity|].
      exists c. fold T. rewrite Hrx. split; [exact Hc|]. split; [exact Hcu|].
      apply (proj1 Hk c c); [fold T; now rewrite Hrx..|]. apply (Htr _ u); auto.
  Qed.
  Theorem C69_entity_index : forall (db : database V) ns nm, shape db -> unique_keys same db ->
    same ns ns = true -> same nm nm = true ->
    keeps (lit "OSP_V1_ENTITIES") [lit "ns_idx"; lit "name"] -> generates (lit "OSP_V1_ENTITIES") (lit "entity_idx") ->
    let q := entity_lookup as_set ns nm in
    let stm := db_insert (lit "OSP_V1_ENTITIES") [lit "ns_idx"; lit "name"] [ns; nm] in
    exists rows, execute (fst (db_select q)) (plookup (snd (db_select q))) db = Some (Done db rows) /\
    match rows with
    | [] => (forall i, ~ entity_index same db ns nm i) /\
        (execute (fst stm) (plookup (snd stm)) db = Some UniqueError
         \/ exists db' r, execute (fst stm) (plookup (snd stm)) db = Some (Done db' [])
              /\ rows_of db' (lit "OSP_V1_ENTITIES") = rows_of db (lit "OSP_V1_ENTITIES") ++ [r]
              /\ (forall t, t <> lit "OSP_V1_ENTITIES" -> db' t = db t)
              /\ shape db' /\ unique_keys same db' /\ entity_index same db' ns nm (r (lit "entity_idx"))
              /\ same_triples same db db')
    | y :: _ => exists i ns' nm', y = [i; ns'; nm'] /\ entity_index same db ns nm i
    end.
  Proof.
    intros db ns nm Hsh Hk Hns Hnm Hkeep Hgen q stm. pose proof Hsh as (Hc & (x & Hx & Hcs) & Hn & Ht & Hr).
    set (T := lit "OSP_V1_ENTITIES") in *.
    assert (Hrx : rows_of db T = trows x) by (unfold rows_of; now rewrite Hx).
    set (members := [CEq (A:=A) T (lit "ns_idx") ns (Some XSD_integer); CEq T (lit "name") nm (Some XSD_string)]).
    assert (Hco : conj_of (Some (CAnd (as_set members))) members).
    { eexists. split; [reflexivity|]. split; [intros y; apply as_set_in | apply as_set_len]. }
    destruct (run_lookup db T [lit "entity_idx"; lit "ns_idx"; lit "name"] (Some (CAnd (as_set members))) x) as (rows & E & Hrows);
      [unfold T; cln | clean_all | discriminate | exact Hx | exact Hcs | | | |].
    { eapply conj_names; [exact Hco|]. unfold members. names_all. }
    { intros a k Hin. destruct (conj_cols _ _ _ _ Hco Hin) as (m & [<-|[<-|[]]] & [[= <- <-]|[]]);
        (split; [reflexivity|]; apply Hcs; cbn [In]; auto). }
    { eapply conj_narrow; [exact Hco | cbn; lia | repeat constructor]. }
    exists rows. split; [exact E|].
    setoid_rewrite (conj_meets _ _ _ Hco) in Hrows. unfold members in Hrows.
    setoid_rewrite meets_cons in Hrows. setoid_rewrite meets_cons in Hrows. setoid_rewrite meets_nil in Hrows.
    cbn [meets] in Hrows. setoid_rewrite row_env_same in Hrows.
    destruct Hsame as [Hs Htr]. destruct rows as [|y rows].
    - assert (Hun : forall c, In c (trows x) -> same (c (lit "ns_idx")) ns = true -> same (c (lit "name")) nm = true -> False).
      { intros c Hc' H1 H2. apply (proj2 (Hrows (map c [lit "entity_idx"; lit "ns_idx"; lit "name"]))). exists c. auto. }
      split.
      { intros i (c & Hcc & H1 & H2 & _). fold T in Hcc. rewrite Hrx in Hcc. eauto. }
      destruct (run_insert' db T [lit "ns_idx"; lit "name"] [ns; nm] x) as [Ei|(r0 & r & Ei & Hm & Ha)];
        [unfold T; cln | clean_all | | discriminate | reflexivity | exact Hx | | exact Hkeep | now left | right].
      { repeat constructor; cbn [In]; intuition discriminate. }
      { intros c [<-|[<-|[]]]; apply Hcs; cbn [In]; auto. }
      destruct (Hgen _ _ _ Ha) as [Hrr Hfresh]. cbn [map] in Hm. injection Hm as Hm1 Hm2.
      eexists. exists r. split; [exact Ei|]. rewrite rows_dbset. cbn [trows].
      split; [fold T; now rewrite Hrx|].
      assert (Hoth : forall y t, t <> T -> dbset db T y t = db t).
      { intros y t Hne. unfold dbset. now rewrite (proj2 (str_eqb_neq t T) Hne). }
      split; [intros t Hne; now apply Hoth|]. split.
      { unfold shape, has_table. fold T. rewrite (Hoth _ (lit "OSP_V1_CUDS")), (Hoth _ (lit "OSP_V1_NAMESPACES")), (Hoth _ (lit "OSP_V1_TYPES")), (Hoth _ (lit "OSP_V1_RELATIONS")) by (intros Hq; discriminate Hq).
        split; [auto|]. split; [|auto]. eexists. split; [unfold dbset; now rewrite str_eqb_refl | exact Hcs]. }
      split; [|split].
      + destruct Hk as [Hk1 Hk2]. split; [rewrite rows_dbset_other by reflexivity; exact Hk1|].
        fold T in Hk2 |- *. rewrite rows_dbset. cbn [trows]. rewrite Hrx in Hk2.
        assert (Hsymf : forall a b, same a b = false -> same b a = false).
        { intros a b Hab. destruct (same b a) eqn:Eb; [|reflexivity]. apply Hs in Eb. congruence. }
        intros c c' Hcc Hcc'. apply in_app_or in Hcc as [Hcc|[<-|[]]]; apply in_app_or in Hcc' as [Hcc'|[<-|[]]].
        * auto.
        * rewrite (Hfresh c Hcc), Hm1, Hm2. split; [intros [H1 H2]; exfalso; eauto | discriminate].
        * rewrite (Hsymf _ _ (Hfresh c' Hcc')), Hm1, Hm2. split; [intros [H1 H2]; exfalso; eauto | discriminate].
        * rewrite Hm1, Hm2, Hns, Hnm, Hrr. tauto.
      + exists r. rewrite rows_dbset. cbn [trows]. split; [apply in_or_app; right; now left|]. rewrite Hm1, Hm2. auto.
      + apply (new_index_triples db T (lit "entity_idx") x r); [now right | exact Hx | exact Hfresh].
    - destruct (proj1 (Hrows y) (or_introl eq_refl)) as (c & Hcc & (H1 & H2 & _) & ->).
      exists (c (lit "entity_idx")), (c (lit "ns_idx")), (c (lit "name")). split; [reflexivity|].
      exists c. fold T. rewrite Hrx. split; [exact Hcc|]. split; [exact H1|]. split; [exact H2|].
      apply (proj2 Hk c c); [fold T; now rewrite Hrx..|]. split; eapply Htr; eauto.
  Qed.
  (** [_load_namespace_indexes]: all rows of the table of namespaces. *)
  Theorem C69_namespaces : forall (db : database V), shape db ->
    let q := namespaces_query as_set in
    exists rows, execute (fst (db_select q)) (plookup (snd (db_select q))) db = Some (Done db rows)
      /\ forall y, In y rows <-> exists r, In r (rows_of db (lit "OSP_V1_NAMESPACES"))
           /\ y = [r (lit "ns_idx"); r (lit "namespace")].
  Proof.
    intros db Hsh q. pose proof Hsh as (_ & _ & (x & Hx & Hcs) & _). set (T := lit "OSP_V1_NAMESPACES") in *.
    assert (Hrx : rows_of db T = trows x) by (unfold rows_of; now rewrite Hx).
    destruct (run_lookup db T [lit "ns_idx"; lit "namespace"] None x) as (rows & E & Hrows);
      [unfold T; cln | clean_all | discriminate | exact Hx | exact Hcs | constructor | intros a k [] | exact I |].
    exists rows. split; [exact E|]. intros y. rewrite Hrows, Hrx. cbn [meets_opt map]. split.
    - intros (r & H1 & _ & ->). eauto.
    - intros (r & H1 & ->). eauto.
  Qed.
End Statements.

(** ** Creating the tables *)
Section Init.
  Context {A : Type} (null : nd A) (same : nd A -> nd A -> bool)
    (admit_row : str -> list (row (nd A)) -> row (nd A) -> option (row (nd A))).
  Notation V := (nd A).
  Notation execute_all := (execute_all null same admit_row).

  (** The table does not exist, or it has these columns. *)
  Definition absent_or (db : database V) (t : str) (cols : list str) : Prop := db t = None \/ has_table db t cols.
  Definition creates (texts : list str) (t : str) (cols : list str) : Prop :=
    forall db : database V,
      (db t = None -> execute_all texts db = Some (dbset db t (Some (Table cols []))))
      /\ (has_table db t cols -> execute_all texts db = Some db).

  Lemma execute_all_app l1 l2 (db : database V) :
    execute_all (l1 ++ l2) db = match execute_all l1 db with Some db' => execute_all l2 db' | None => None end.
  Proof.
    revert db; induction l1 as [|s l1 IH]; intros db; [reflexivity|]. cbn [app PropSqlText.execute_all].
    destruct (execute null same admit_row s (fun _ => None) db) as [[db' ?|]|]; [apply IH | reflexivity | reflexivity].
  Qed.
  Lemma creates_all (L : list (list str * (str * list str))) :
    Forall (fun '(ts, (t, cols)) => creates ts t cols) L ->
    (forall ts t cols ts' cols', In (ts, (t, cols)) L -> In (ts', (t, cols')) L -> cols = cols') ->
    (forall db : database V, (forall ts t cols, In (ts, (t, cols)) L -> has_table db t cols) ->
       execute_all (concat (map fst L)) db = Some db)
    /\ forall db : database V, (forall ts t cols, In (ts, (t, cols)) L -> absent_or db t cols) ->
    exists db', execute_all (concat (map fst L)) db = Some db'
      /\ (forall ts t cols, In (ts, (t, cols)) L -> has_table db' t cols)
      /\ (forall t x, db t = Some x -> db' t = Some x)
      /\ (forall t, db t = None -> rows_of db' t = [])
      /\ (forall t, db t = None -> db' t <> None -> exists ts cols, In (ts, (t, cols)) L /\ db' t = Some (Table cols [])).
  Proof.
    intros HF Hco. split.
    - clear Hco. induction HF as [|(ts, (t, cols)) L Hc HF IH]; intros db Hdb; [reflexivity|].
      cbn [map concat fst]. rewrite execute_all_app. destruct (Hc db) as [_ H]. rewrite H by (eapply Hdb; left; reflexivity).
      apply IH. intros ts' t' cols' Hin. eapply Hdb. right. exact Hin.
    - induction HF as [|(ts, (t, cols)) L Hc HF IH]; intros db Hdb.
      { exists db. split; [reflexivity|]. split; [intros ts t cols []|]. split; [auto|]. split; [intros t Ht; unfold rows_of; now rewrite Ht|].
        intros t Ht Hn. congruence. }
      cbn [map concat fst]. rewrite execute_all_app.
      assert (Hco' : forall ts t cols ts' cols', In (ts, (t, cols)) L -> In (ts', (t, cols')) L -> cols = cols').
      { intros; eapply Hco; right; eauto. }
      specialize (IH Hco').
      destruct (Hc db) as [Hnew Hold]. destruct (Hdb ts t cols (or_introl eq_refl)) as [Hn|Hh].
      + rewrite Hnew by exact Hn. destruct (IH (dbset db t (Some (Table cols [])))) as (db' & E & H1 & H2 & H3 & H4).
        { intros ts' t' cols' Hin. unfold absent_or, has_table, dbset. destruct (str_eqb t' t) eqn:Et.
          - apply str_eqb_eq in Et. subst t'. right. eexists. split; [reflexivity|]. cbn [tcols].
            rewrite (Hco ts t cols ts' cols'); [auto | now left | now right].
          - apply (Hdb ts'). now right. }
        assert (Ht : db' t = Some (Table cols [])) by (apply H2; unfold dbset; now rewrite str_eqb_refl).
        exists db'. split; [exact E|]. split; [|split; [|split]].
        * intros ts' t' cols' [[= <- <- <-]|Hin]; [|eauto]. eexists. split; [exact Ht | auto].
        * intros t' x Hx. apply H2. unfold dbset. destruct (str_eqb t' t) eqn:Et; [|exact Hx]. apply str_eqb_eq in Et. congruence.
        * intros t' Hx. destruct (str_eqb t' t) eqn:Et; [apply str_eqb_eq in Et; subst t'; unfold rows_of; now rewrite Ht|].
          apply H3. unfold dbset. now rewrite Et.
        * intros t' Hx Hy. destruct (str_eqb t' t) eqn:Et; [apply str_eqb_eq in Et; subst t'; exists ts, cols; split; [now left | exact Ht]|].
          destruct (H4 t') as (ts' & cols' & Hin & Hq); [unfold dbset; now rewrite Et | exact Hy|]. exists ts', cols'. split; [now right | exact Hq].
      + rewrite Hold by exact Hh. destruct (IH db) as (db' & E & H1 & H2 & H3 & H4).
        { intros ts' t' cols' Hin. apply (Hdb ts'). now right. }
        exists db'. split; [exact E|]. split; [|split; [exact H2|split; [exact H3|]]].
        * intros ts' t' cols' [[= <- <- <-]|Hin]; [|eauto]. destruct Hh as (x & Hx & Hxc). exists x. auto.
        * intros t' Hx Hy. destruct (H4 t' Hx Hy) as (ts' & cols' & Hin & Hq). exists ts', cols'. split; [now right | exact Hq].
  Qed.

  Lemma create_schema sc cols dts texts :
    expand_cols0 (sc_datatypes sc) (sc_datatypes sc) (sc_columns sc) = Ok (cols, dts) -> create_texts sc = Ok texts ->
    clean_name (sc_table sc) -> Forall clean_name cols -> NoDup cols -> cols <> [] ->
    (forall c, In c cols -> dts c <> None) ->
    (forall k, In k (sc_primary sc) -> In k cols) ->
    (forall c t' c', In (c, (t', c')) (sc_foreign sc) -> In c cols /\ clean_name t' /\ clean_name c') ->
    (forall i, In i (sc_indexes sc) -> i <> [] /\ forall k, In k i -> In k cols) ->
    creates texts (sc_table sc) cols.
  Proof.
    intros E Ec Ht Hc Hnd Hne Hd Hpk Hfk Hidx db. unfold create_texts in Ec. rewrite E in Ec.
    destruct (C67_create null same admit_row _ cols dts _ _ _ texts db Ec Ht Hc Hnd Hne Hd Hpk Hfk Hidx) as [H1 H2].
    split; [exact H1|]. intros (x & Hx & Hxc). eauto.
  Qed.

  Ltac core sc := intros texts E; eapply (create_schema sc); [reflexivity | exact E | cln | clean_all
      | repeat constructor; cbn [In]; intuition discriminate | discriminate
      | cbn [In]; intros c Hc; repeat (destruct Hc as [<-|Hc]; [discriminate|]); destruct Hc
      | cbn [In sc_primary sc_namespaces sc_cuds sc_entities sc_types sc_relations]; tauto
      | cbn [In sc_foreign sc_namespaces sc_cuds sc_entities sc_types sc_relations];
        intros c t' c' Hc; repeat (destruct Hc as [Hc|Hc]; [injection Hc as <- <- <-; split; [tauto | split; cln]|]); destruct Hc
      | cbn [In sc_indexes sc_namespaces sc_cuds sc_entities sc_types sc_relations];
        intros i Hi; repeat (destruct Hi as [<-|Hi]; [split; [discriminate | cbn [In]; tauto]|]); destruct Hi ].
  Lemma creates_namespaces : forall texts, create_texts sc_namespaces = Ok texts ->
    creates texts NAMESPACES_TABLE [lit "ns_idx"; lit "namespace"].
  Proof. core sc_namespaces. Qed.
  Lemma creates_cuds : forall texts, create_texts sc_cuds = Ok texts -> creates texts CUDS_TABLE [lit "cuds_idx"; lit "uid"].
  Proof. core sc_cuds. Qed.
  Lemma creates_entities : forall texts, create_texts sc_entities = Ok texts ->
    creates texts ENTITIES_TABLE [lit "entity_idx"; lit "ns_idx"; lit "name"].
  Proof. core sc_entities. Qed.
  Lemma creates_types : forall texts, create_texts sc_types = Ok texts -> creates texts TYPES_TABLE [lit "s"; lit "o"].
  Proof. core sc_types. Qed.
  Lemma creates_relations : forall texts, create_texts sc_relations = Ok texts ->
    creates texts RELATIONSHIP_TABLE [lit "s"; lit "p"; lit "o"].
  Proof. core sc_relations. Qed.
  Lemma upd_fold ecols v (d : dict) : forall c, In c ecols -> fold_left (fun d k => upd d k v) ecols d c <> None.
  Proof.
    assert (Hkeep : forall l d c, d c <> None -> fold_left (fun d k => upd d k v) l d c <> None).
    { induction l as [|k l IH]; intros d0 c Hc; [exact Hc|]. cbn. apply IH. unfold upd. destruct (str_eqb _ _); [discriminate | exact Hc]. }
    revert d. induction ecols as [|k l IH]; intros d c Hin; [destruct Hin|]; destruct Hin as [<-|Hc]; cbn [fold_left].
    - apply Hkeep. unfold upd. rewrite str_eqb_refl. discriminate.
    - now apply IH.
  Qed.
  Lemma creates_data t dt ocols edt : get_expanded_cols (lit "o") (Some dt) = Ok (ocols, edt) -> ocols <> [] -> clean_name t ->
    forall texts, create_texts (sc_data t dt) = Ok texts -> creates texts t (lit "s" :: lit "p" :: ocols).
  Proof.
    intros E Hne Ht texts Ec.
    destruct (expanded_cols_clean _ _ _ E) as (Hcl & Hns & Hnp). destruct (expanded_cols_form _ _ _ E) as (_ & Hnd & Hsc).
    assert (exists dts, expand_cols0 (sc_datatypes (sc_data t dt)) (sc_datatypes (sc_data t dt)) (sc_columns (sc_data t dt))
        = Ok (lit "s" :: lit "p" :: ocols, dts) /\ forall c, In c (lit "s" :: lit "p" :: ocols) -> dts c <> None) as (dts & Ex & Hd).
    { assert (S1 : sc_datatypes (sc_data t dt) (lit "s") = Some (Some XSD_integer)) by reflexivity.
      assert (S2 : sc_datatypes (sc_data t dt) (lit "p") = Some (Some XSD_integer)) by reflexivity.
      assert (S3 : sc_datatypes (sc_data t dt) (lit "o") = Some (Some dt)) by reflexivity.
      set (d0 := sc_datatypes (sc_data t dt)) in *. change (sc_columns (sc_data t dt)) with [lit "s"; lit "p"; lit "o"].
      cbn [expand_cols0]. rewrite S1, S2, S3. change (is_vector (Some XSD_integer)) with false. cbn [negb].
      destruct (is_vector (Some dt)) eqn:Ev; cbn [negb].
      - rewrite E, app_nil_r. eexists. split; [reflexivity|]. intros c Hc. unfold upd at 1.
        destruct (str_eqb _ _); [discriminate|]. destruct Hc as [<-|[<-|Hc]].
        + assert (Hkeep : forall l d, d (lit "s") <> None -> fold_left (fun d k => upd d k edt) l d (lit "s") <> None).
          { induction l as [|k l IH]; intros d Hc; [exact Hc|]. cbn [fold_left]. apply IH. unfold upd. destruct (str_eqb _ _); [discriminate | exact Hc]. }
          apply Hkeep. discriminate.
        + assert (Hkeep : forall l d, d (lit "p") <> None -> fold_left (fun d k => upd d k edt) l d (lit "p") <> None).
          { induction l as [|k l IH]; intros d Hc; [exact Hc|]. cbn [fold_left]. apply IH. unfold upd. destruct (str_eqb _ _); [discriminate | exact Hc]. }
          apply Hkeep. discriminate.
        + now apply upd_fold.
      - rewrite Hsc by reflexivity. eexists. split; [reflexivity|]. intros c [<-|[<-|[<-|[]]]]; discriminate. }
    eapply (create_schema (sc_data t dt)); [exact Ex | exact Ec | exact Ht | | | discriminate | exact Hd | | |].
    - apply Forall_cons; [cln|]. apply Forall_cons; [cln | exact Hcl].
    - constructor; [|constructor; auto]. intros [Hq|Hq]; [discriminate Hq | auto].
    - intros k [].
    - cbn [sc_foreign sc_data In]. intros c t' c' Hc. repeat (destruct Hc as [Hc|Hc]; [injection Hc as <- <- <-; split; [cbn [In]; tauto | split; cln]|]). destruct Hc.
    - cbn [sc_indexes sc_data In]. intros i [<-|[]]. split; [discriminate|]. cbn [In]. tauto.
  Qed.
  Lemma data_name_prefix dt t : get_data_table_name dt = Ok t -> startswith DATA_TABLE_PREFIX t = true.
  Proof.
    unfold get_data_table_name. repeat match goal with |- context [if ?b then _ else _] => destruct b end;
      intros H; [apply Ok_inj in H; subst t; apply startswith_iff; eexists; reflexivity..|discriminate].
  Qed.

  (** The statements of [_initialize]: the tables exist afterwards, the new ones empty, the
      existing ones as they were; executing them again changes nothing. *)
  Theorem C69_initialize : forall dts texts (db : database V),
    initialize_texts dts = Ok texts ->
    (forall dt t, In dt dts -> get_data_table_name dt = Ok t -> clean_name t) ->
    (forall dt dt' t, In dt dts -> In dt' dts -> get_data_table_name dt = Ok t -> get_data_table_name dt' = Ok t -> dt = dt') ->
    (forall dt ocols edt, In dt dts -> get_expanded_cols (lit "o") (Some dt) = Ok (ocols, edt) -> ocols <> []) ->
    absent_or db (lit "OSP_V1_NAMESPACES") [lit "ns_idx"; lit "namespace"] ->
    absent_or db (lit "OSP_V1_CUDS") [lit "cuds_idx"; lit "uid"] ->
    absent_or db (lit "OSP_V1_ENTITIES") [lit "entity_idx"; lit "ns_idx"; lit "name"] ->
    absent_or db (lit "OSP_V1_TYPES") [lit "s"; lit "o"] ->
    absent_or db (lit "OSP_V1_RELATIONS") [lit "s"; lit "p"; lit "o"] ->
    (forall dt t ocols edt, In dt dts -> get_data_table_name dt = Ok t ->
       get_expanded_cols (lit "o") (Some dt) = Ok (ocols, edt) -> absent_or db t (lit "s" :: lit "p" :: ocols)) ->
    exists db', execute_all texts db = Some db' /\ shape db'
      /\ (forall dt, In dt dts -> exists t ocols edt, get_data_table_name dt = Ok t
            /\ get_expanded_cols (lit "o") (Some dt) = Ok (ocols, edt) /\ has_table db' t (lit "s" :: lit "p" :: ocols))
      /\ (forall t x, db t = Some x -> db' t = Some x)
      /\ (forall t, db t = None -> rows_of db' t = [])
      /\ execute_all texts db' = Some db'.
  Proof.
    intros dts texts db E Hcl Hinj Hne A1 A2 A3 A4 A5 A6.
    unfold initialize_texts in E. destruct (initialize_schemas dts) as [scs|] eqn:Es; [|discriminate].
    unfold initialize_schemas in Es. destruct (mapM _ dts) as [ds|] eqn:Ed; [|discriminate]. cbn [rmap] in Es. apply Ok_inj in Es. subst scs.
    destruct (mapM create_texts _) as [tss|] eqn:Et; [|discriminate]. cbn [rmap] in E. apply Ok_inj in E. subst texts.
    cbn [app mapM] in Et.
    destruct (create_texts sc_namespaces) as [x1|] eqn:C1; [|discriminate].
    destruct (create_texts sc_cuds) as [x2|] eqn:C2; [|discriminate].
    destruct (create_texts sc_entities) as [x3|] eqn:C3; [|discriminate].
    destruct (create_texts sc_types) as [x4|] eqn:C4; [|discriminate].
    destruct (create_texts sc_relations) as [x5|] eqn:C5; [|discriminate].
    destruct (mapM create_texts ds) as [xs|] eqn:C6; [|discriminate]. apply Ok_inj in Et. subst tss.
    assert (exists LD : list (list str * (str * list str)), map fst LD = xs
      /\ Forall (fun '(ts, (t, cols)) => creates ts t cols) LD
      /\ (forall ts t cols, In (ts, (t, cols)) LD -> exists dt ocols edt, In dt dts /\ get_data_table_name dt = Ok t
            /\ get_expanded_cols (lit "o") (Some dt) = Ok (ocols, edt) /\ cols = lit "s" :: lit "p" :: ocols)
      /\ (forall dt, In dt dts -> exists ts t ocols edt, get_data_table_name dt = Ok t
            /\ get_expanded_cols (lit "o") (Some dt) = Ok (ocols, edt) /\ In (ts, (t, lit "s" :: lit "p" :: ocols)) LD))
      as (LD & Hfst & HFD & HD1 & HD2).
    { clear -Ed C6 Hcl Hne. revert ds xs Ed C6. induction dts as [|dt dts IH]; intros ds xs Ed C6.
      - cbn in Ed. apply Ok_inj in Ed. subst ds. cbn in C6. apply Ok_inj in C6. subst xs. exists [].
        split; [reflexivity|]. split; [constructor|]. split; [intros ts t cols []|intros dt []].
      - cbn [mapM] in Ed. destruct (get_data_table_name dt) as [t|] eqn:En; [|discriminate]. cbn [rmap] in Ed.
        destruct (mapM _ dts) as [ds'|] eqn:Ed'; [|discriminate]. apply Ok_inj in Ed. subst ds.
        cbn [mapM] in C6. destruct (create_texts (sc_data t dt)) as [x|] eqn:Ec; [|discriminate].
        destruct (mapM create_texts ds') as [xs'|] eqn:C6'; [|discriminate]. apply Ok_inj in C6. subst xs.
        destruct (IH) with (ds := ds') (xs := xs') as (LD & H1 & H2 & H3 & H4); auto.
        { intros dt0 t0 H. apply Hcl. now right. } { intros dt0 oc ed H. apply (Hne dt0 oc ed). now right. }
        assert (exists ocols edt, get_expanded_cols (lit "o") (Some dt) = Ok (ocols, edt)) as (ocols & edt & Eo).
        { destruct (get_expanded_cols (lit "o") (Some dt)) as [(oc, ed)|er] eqn:Eo; [eauto|]. exfalso.
          unfold create_texts in Ec. change (sc_columns (sc_data t dt)) with [lit "s"; lit "p"; lit "o"] in Ec.
          assert (S1 : sc_datatypes (sc_data t dt) (lit "s") = Some (Some XSD_integer)) by reflexivity.
          assert (S2 : sc_datatypes (sc_data t dt) (lit "p") = Some (Some XSD_integer)) by reflexivity.
          assert (S3 : sc_datatypes (sc_data t dt) (lit "o") = Some (Some dt)) by reflexivity.
          set (d0 := sc_datatypes (sc_data t dt)) in *. cbn [expand_cols0] in Ec. rewrite S1, S2, S3 in Ec.
          change (is_vector (Some XSD_integer)) with false in Ec. cbn [negb] in Ec.
          destruct (is_vector (Some dt)) eqn:Ev; cbn [negb] in Ec.
          - rewrite Eo in Ec. discriminate.
          - unfold get_expanded_cols in Eo. unfold is_vector in Ev. rewrite Ev in Eo. discriminate. }
        exists ((x, (t, lit "s" :: lit "p" :: ocols)) :: LD). split; [cbn; now rewrite H1|]. split; [|split].
        + constructor; [|exact H2]. eapply creates_data; [exact Eo | | | exact Ec].
          * eapply Hne; [now left | exact Eo].
          * eapply Hcl; [now left | exact En].
        + intros ts t' cols [[= <- <- <-]|Hin].
          * exists dt, ocols, edt. split; [now left | auto].
          * destruct (H3 _ _ _ Hin) as (dt' & oc & ed & Hx & Hy). exists dt', oc, ed. split; [now right | exact Hy].
        + intros dt' [<-|Hin].
          * exists x, t, ocols, edt. split; [exact En|]. split; [exact Eo | now left].
          * destruct (H4 _ Hin) as (ts & t' & oc & ed & Hx & Hy & Hz). exists ts, t', oc, ed. split; [exact Hx|]. split; [exact Hy | now right]. }
    set (LC := [(x1, (NAMESPACES_TABLE, [lit "ns_idx"; lit "namespace"])); (x2, (CUDS_TABLE, [lit "cuds_idx"; lit "uid"]));
                (x3, (ENTITIES_TABLE, [lit "entity_idx"; lit "ns_idx"; lit "name"])); (x4, (TYPES_TABLE, [lit "s"; lit "o"]));
                (x5, (RELATIONSHIP_TABLE, [lit "s"; lit "p"; lit "o"]))]).
    assert (Hmap : x1 :: x2 :: x3 :: x4 :: x5 :: xs = map fst (LC ++ LD)) by (rewrite map_app, Hfst; reflexivity).
    rewrite Hmap.
    assert (HF : Forall (fun '(ts, (t, cols)) => creates ts t cols) (LC ++ LD)).
    { apply Forall_app. split; [|exact HFD].
      constructor; [now apply creates_namespaces|]. constructor; [now apply creates_cuds|]. constructor; [now apply creates_entities|].
      constructor; [now apply creates_types|]. constructor; [now apply creates_relations | constructor]. }
    assert (HLC : forall ts t cols, In (ts, (t, cols)) LC -> In t [NAMESPACES_TABLE; CUDS_TABLE; ENTITIES_TABLE; TYPES_TABLE; RELATIONSHIP_TABLE]).
    { intros ts t cols Hin. unfold LC in Hin. cbn [In] in Hin. cbn [In].
      repeat (destruct Hin as [Hin|Hin]; [injection Hin as <- <- <-; tauto|]). destruct Hin. }
    assert (Hcross : forall ts t cols ts' cols', In (ts, (t, cols)) LC -> In (ts', (t, cols')) LD -> False).
    { intros ts t cols ts' cols' H1 H2. apply HLC in H1. destruct (HD1 _ _ _ H2) as (dt & oc & ed & _ & Hn & _).
      apply data_name_prefix in Hn. apply startswith_iff in Hn as (u & ->). cbn [In] in H1.
      repeat (destruct H1 as [H1|H1]; [discriminate H1|]). destruct H1. }
    assert (Hco : forall ts t cols ts' cols', In (ts, (t, cols)) (LC ++ LD) -> In (ts', (t, cols')) (LC ++ LD) -> cols = cols').
    { intros ts t cols ts' cols' H1 H2. apply in_app_or in H1 as [H1|H1]; apply in_app_or in H2 as [H2|H2].
      - unfold LC in H1, H2. cbn [In] in H1, H2.
        repeat (destruct H1 as [H1|H1]; [injection H1 as <- <- <-;
          repeat (destruct H2 as [H2|H2]; [first [discriminate H2 | injection H2 as <- <-; reflexivity]|]); destruct H2|]). destruct H1.
      - exfalso; eauto.
      - exfalso; eauto.
      - destruct (HD1 _ _ _ H1) as (dt & oc & ed & I1 & N1 & E1 & ->). destruct (HD1 _ _ _ H2) as (dt' & oc' & ed' & I2 & N2 & E2 & ->).
        assert (dt = dt') by eauto. subst dt'. rewrite E1 in E2. apply Ok_inj in E2. now injection E2 as -> _. }
    destruct (creates_all (LC ++ LD) HF Hco) as [Hidem Hrun].
    destruct (Hrun db) as (db' & Ex & H1 & H2 & H3 & H4).
    { intros ts t cols Hin. apply in_app_or in Hin as [Hin|Hin].
      - unfold LC in Hin. cbn [In] in Hin.
        repeat (destruct Hin as [Hin|Hin]; [injection Hin as <- <- <-; assumption|]). destruct Hin.
      - destruct (HD1 _ _ _ Hin) as (dt & oc & ed & I1 & N1 & E1 & ->). eauto. }
    exists db'. split; [exact Ex|]. split; [|split; [|split; [exact H2|split; [exact H3|]]]].
    - assert (HC : forall ts t cols, In (ts, (t, cols)) LC -> has_table db' t cols).
      { intros ts t cols Hin. apply (H1 ts). apply in_or_app. now left. }
      split; [apply (HC x2)|split; [apply (HC x3)|split; [apply (HC x1)|split; [apply (HC x4)|apply (HC x5)]]]]; unfold LC; cbn [In]; tauto.
    - intros dt Hdt. destruct (HD2 dt Hdt) as (ts & t & oc & ed & N & E & Hin). exists t, oc, ed. split; [exact N|]. split; [exact E|].
      apply (H1 ts). apply in_or_app. now right.
    - apply Hidem. exact H1.
  Qed.
End Init.

(** ** Example: a database with two objects, one relationship and one vector value *)
Section Example.
  Definition z_null : nd Z := Leaf (-1)%Z.
  Definition z_same (x y : nd Z) : bool :=
    match x, y with Leaf a, Leaf b => (a =? b)%Z && (0 <=? a)%Z | _, _ => false end.
  Definition z_val (x : nd Z) : Z := match x with Leaf a => a | _ => 0%Z end.
  Definition z_next (i : str) (rows : list (row (nd Z))) : nd Z :=
    Leaf (fold_right (fun r n => Z.max (z_val (r i)) n) 0 rows + 1)%Z.
  Definition z_admit (t : str) (rows : list (row (nd Z))) (r : row (nd Z)) : option (row (nd Z)) :=
    let gen i := Some (fun k => if str_eqb k i then z_next i rows else r k) in
    if str_eqb t (lit "OSP_V1_CUDS") then gen (lit "cuds_idx")
    else if str_eqb t (lit "OSP_V1_ENTITIES") then gen (lit "entity_idx")
    else Some r.
  Definition z_vec : str := lit "http://www.osp-core.com/cuba#_datatypes/VECTOR-INT-2".
  Lemma z_max i rows q : In q rows -> (z_val (q i) < z_val (z_next i rows))%Z /\ (0 < z_val (z_next i rows))%Z.
  Proof.
    induction rows as [|r rows IH]; intros H; [destruct H|]. cbn in *.
    destruct H as [<-|H]; [|specialize (IH H); lia]. clear IH.
    assert (0 <= fold_right (fun r n => Z.max (z_val (r i)) n) 0 rows)%Z by (induction rows; cbn; lia). lia.
  Qed.
  Lemma z_next_pos i rows : exists n, z_next i rows = Leaf n /\ (0 < n)%Z.
  Proof.
    eexists. split; [reflexivity|].
    assert (0 <= fold_right (fun r n => Z.max (z_val (r i)) n) 0 rows)%Z by (induction rows; cbn; lia). lia.
  Qed.
  Example C69_example_hypotheses :
    set_order (fun l : list (cond Z) => l) /\ comparison z_same
    /\ keeps z_admit (lit "OSP_V1_CUDS") [lit "uid"] /\ generates z_same z_admit (lit "OSP_V1_CUDS") (lit "cuds_idx")
    /\ keeps z_admit (lit "OSP_V1_ENTITIES") [lit "ns_idx"; lit "name"]
    /\ generates z_same z_admit (lit "OSP_V1_ENTITIES") (lit "entity_idx")
    /\ keeps z_admit (lit "OSP_V1_RELATIONS") [lit "s"; lit "p"; lit "o"]
    /\ keeps z_admit (lit "OSP_V1_TYPES") [lit "s"; lit "o"].
  Proof.
    assert (Hg : forall i rows (r : row (nd Z)), let r' := fun k => if str_eqb k i then z_next i rows else r k in
              z_same (r' i) (r' i) = true /\ forall q, In q rows -> z_same (q i) (r' i) = false).
    { intros i rows r r'. unfold r'. rewrite str_eqb_refl. destruct (z_next_pos i rows) as (n & E & Hn). split.
      - rewrite E. cbn. rewrite Z.eqb_refl. apply Z.leb_le. lia.
      - intros q Hq. destruct (z_max i rows q Hq) as [Hlt _]. rewrite E in *. cbn in Hlt. destruct (q i) as [a|]; [|reflexivity].
        cbn in *. destruct (Z.eqb_spec a n); [lia | reflexivity]. }
    split; [unfold set_order; split; [tauto | auto]|]. split.
    { unfold comparison. split.
      - intros [a|] [b|]; cbn; try discriminate. rewrite !andb_true_iff, !Z.eqb_eq, !Z.leb_le. lia.
      - intros [a|] [b|] [c|]; cbn; try discriminate. rewrite !andb_true_iff, !Z.eqb_eq, !Z.leb_le. lia. }
    split; [intros rows r r' E c [<-|[]]; injection E as <-; reflexivity|].
    split; [intros rows r r' E; injection E as <-; exact (Hg (lit "cuds_idx") rows r)|].
    split; [intros rows r r' E c [<-|[<-|[]]]; injection E as <-; reflexivity|].
    split; [intros rows r r' E; injection E as <-; exact (Hg (lit "entity_idx") rows r)|].
    split; [intros rows r r' E c _; injection E as <-; reflexivity|].
    intros rows r r' E c _. injection E as <-. reflexivity.
  Qed.

  Definition z_run (x : str * params Z) (db : option (database (nd Z))) : option (database (nd Z)) :=
    match db with
    | Some db => match execute z_null z_same z_admit (fst x) (plookup (snd x)) db with Some (Done db' _) => Some db' | _ => None end
    | None => None
    end.
  Definition z_ask (q : res (query Z)) (db : option (database (nd Z))) : option (list (list (nd Z))) :=
    match q, db with
    | Ok q, Some db => match execute z_null z_same z_admit (fst (db_select q)) (plookup (snd (db_select q))) db with
                       | Some (Done _ rows) => Some rows | _ => None end
    | _, _ => None
    end.
  Definition z_id (l : list (cond Z)) := l.
  Definition z0 : option (database (nd Z)) :=
    match initialize_texts [XSD_integer; z_vec] with
    | Ok ts => execute_all z_null z_same z_admit ts (fun _ => None)
    | Err _ => None
    end.
  Definition z_tv : str := lit "DATA_V1_VECTOR-INT-2".
  Definition Lf (l : list Z) := map Leaf l.
  (** objects 50 (index 1) and 60 (index 2); entity (3, 7) (index 1) *)
  Definition z1 := z_run (db_insert (lit "OSP_V1_ENTITIES") [lit "ns_idx"; lit "name"] (Lf [3; 7]%Z))
    (z_run (db_insert (lit "OSP_V1_CUDS") [lit "uid"] (Lf [60]%Z)) (z_run (db_insert (lit "OSP_V1_CUDS") [lit "uid"] (Lf [50]%Z)) z0)).
  Definition z2 := z_run (db_insert (lit "OSP_V1_RELATIONS") [lit "s"; lit "p"; lit "o"] (Lf [1; 1; 2]%Z))
    (z_run (db_insert z_tv [lit "s"; lit "p"; lit "o___0"; lit "o___1"] (Lf [1; 1; 8; 9]%Z)) z1).
  Definition z_pat (s : option (nd Z)) o := Pattern s (Some (Leaf 3, Leaf 7)%Z) o.
  Example C69_example :
    add_columns z_tv z_vec = Ok [lit "s"; lit "p"; lit "o___0"; lit "o___1"]
    /\ z_ask (construct_query z_id (z_pat None None) (lit "OSP_V1_RELATIONS") XSD_integer) z2 = Some [Lf [50; 3; 7; 60]%Z]
    /\ z_ask (construct_query z_id (z_pat None (Some (OUid (Leaf 50%Z)))) (lit "OSP_V1_RELATIONS") XSD_integer) z2 = Some []
    /\ z_ask (construct_query z_id (z_pat None (Some (OVal (Lf [8; 9]%Z)))) z_tv z_vec) z2 = Some [Lf [50; 3; 7; 8; 9]%Z]
    /\ match construct_remove_condition z_id (IPattern (Some (Leaf 1%Z)) None None) z_tv z_vec with
       | Ok c => z_ask (construct_query z_id (Pattern None None None) z_tv z_vec) (z_run (db_delete z_tv (Some c)) z2) = Some []
       | Err _ => False
       end.
  Proof. repeat split; vm_compute; reflexivity. Qed.
  Example C69_example_shape : exists db, z2 = Some db /\ shape db /\ unique_keys z_same db
    /\ has_table db z_tv [lit "s"; lit "p"; lit "o___0"; lit "o___1"]
    /\ cuds_index z_same db (Leaf 50%Z) (Leaf 1%Z) /\ cuds_index z_same db (Leaf 60%Z) (Leaf 2%Z)
    /\ entity_index z_same db (Leaf 3%Z) (Leaf 7%Z) (Leaf 1%Z).
  Proof.
    assert (Hf : z2 <> None) by (vm_compute; discriminate).
    assert (Hcols : forall db, z2 = Some db -> forall t cols,
      match z2 with Some d => match d t with Some x => forallb (fun c => in_list c (tcols x)) cols | None => false end | None => false end = true ->
      has_table db t cols).
    { intros db E t cols. rewrite E. unfold has_table. destruct (db t) as [x|]; [|discriminate]. intros H. exists x.
      split; [reflexivity|]. rewrite forallb_forall in H. intros c Hc. apply in_list_iff. auto. }
    assert (Hrows : forall db, z2 = Some db -> exists c1 c2 e,
        rows_of db (lit "OSP_V1_CUDS") = [c1; c2] /\ rows_of db (lit "OSP_V1_ENTITIES") = [e]
        /\ c1 (lit "uid") = Leaf 50%Z /\ c1 (lit "cuds_idx") = Leaf 1%Z /\ c2 (lit "uid") = Leaf 60%Z /\ c2 (lit "cuds_idx") = Leaf 2%Z
        /\ e (lit "ns_idx") = Leaf 3%Z /\ e (lit "name") = Leaf 7%Z /\ e (lit "entity_idx") = Leaf 1%Z).
    { intros db E.
      assert (H : match z2 with
        | Some d => match rows_of d (lit "OSP_V1_CUDS"), rows_of d (lit "OSP_V1_ENTITIES") with
           | [c1; c2], [e] => (c1 (lit "uid"), c1 (lit "cuds_idx"), c2 (lit "uid"), c2 (lit "cuds_idx"), e (lit "ns_idx"), e (lit "name"), e (lit "entity_idx"))
             = (Leaf 50, Leaf 1, Leaf 60, Leaf 2, Leaf 3, Leaf 7, Leaf 1)%Z
           | _, _ => False end
        | None => False end) by (vm_compute; reflexivity).
      rewrite E in H. destruct (rows_of db (lit "OSP_V1_CUDS")) as [|c1 [|c2 [|]]]; [destruct H..| |destruct H].
      destruct (rows_of db (lit "OSP_V1_ENTITIES")) as [|e [|]]; [destruct H| |destruct H].
      injection H as H1 H2 H3 H4 H5 H6 H7. exists c1, c2, e. auto 12. }
    assert (Hc : forall db, z2 = Some db -> shape db /\ has_table db z_tv [lit "s"; lit "p"; lit "o___0"; lit "o___1"]).
    { intros db E. split; [split; [|split; [|split; [|split]]]|]; apply (Hcols db E); vm_compute; reflexivity. }
    destruct z2 as [db|]; [|congruence]. clear Hf. exists db. split; [reflexivity|].
    destruct (Hc db eq_refl) as [Hsh Ht]. destruct (Hrows db eq_refl) as (c1 & c2 & e & R1 & R2 & U1 & I1 & U2 & I2 & N & M & J).
    split; [exact Hsh|]. split; [|split; [exact Ht|]].
    - unfold unique_keys. rewrite R1, R2. split.
      + intros c c' [<-|[<-|[]]] [<-|[<-|[]]]; rewrite ?U1, ?I1, ?U2, ?I2; cbn; tauto || (split; discriminate).
      + intros x x' [<-|[]] [<-|[]]. rewrite N, M, J. cbn. tauto.
    - unfold cuds_index, entity_index. rewrite R1, R2. split; [|split].
      + exists c1. rewrite U1, I1. cbn. auto.
      + exists c2. rewrite U2, I2. cbn. auto.
      + exists e. rewrite N, M, J. cbn. auto.
  Qed.
End Example.

Print Assumptions C69_select_rels.
Print Assumptions C69_select_types.
Print Assumptions C69_select_data.
Print Assumptions C69_remove_rels.
Print Assumptions C69_remove_types.
Print Assumptions C69_remove_data.
Print Assumptions C69_add_rel.
Print Assumptions C69_add_type.
Print Assumptions C69_add_data.
Print Assumptions C69_cuds_index.
Print Assumptions C69_entity_index.
Print Assumptions C69_namespaces.
Print Assumptions C69_initialize.
