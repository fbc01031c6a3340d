(** Property C71: the SQL session, from triple operations to rows: adding, removing and
    reading triples by the statement texts has the effect of set operations on triples. *)
From Coq Require Import String List NArith ZArith Lia Bool.
From Verif Require Import Prelude Utf8 Text Datatype SqlUtil PropSqlUtil SqlRead SqlText SqlTextProofs PropSqlText SqlTriple PropSqlTriple SqlSession.
Import ListNotations.
Local Open Scope nat_scope.
Local Open Scope list_scope.

(** ** Specification *)
Section Spec.
  Context {A : Type} (same : nd A -> nd A -> bool)
    (admit_row : str -> list (row (nd A)) -> row (nd A) -> option (row (nd A))).
  Notation V := (nd A).

  (** The namespace [n] has the index [i]. *)
  Definition ns_is (db : database V) (i n : V) : Prop :=
    exists r : row V, In r (rows_of db (lit "OSP_V1_NAMESPACES")) /\ i = r (lit "ns_idx") /\ n = r (lit "namespace").

  (** The data tables (name and datatype of the values) in use. *)
  Definition tables_ok (tabs : list (str * str)) : Prop :=
    (forall t dt, In (t, dt) tabs -> startswith DATA_TABLE_PREFIX t = true /\ clean_name t
       /\ exists ocols edt, get_expanded_cols (lit "o") (Some dt) = Ok (ocols, edt))
    /\ (forall t dt dt', In (t, dt) tabs -> In (t, dt') tabs -> dt = dt').

  (** The triples in the database. *)
  Definition holds (tabs : list (str * str)) (db : database V) (x : striple A) : Prop :=
    match x with
    | TRel s (n, nm) o => exists i, ns_is db i n /\ stored_rel same db s i nm o
    | TType s (n, nm) => exists i, ns_is db i n /\ stored_type same db s i nm
    | TData t dt s (n, nm) ws => In (t, dt) tabs /\ exists i ocols edt,
        ns_is db i n /\ get_expanded_cols (lit "o") (Some dt) = Ok (ocols, edt) /\ stored_data same db t ocols s i nm ws
    end.

  (** A triple fits a pattern; None is a wildcard. *)
  Definition open {B} (p : option B) (v : B) : Prop := p = None \/ p = Some v.
  Definition fits (p : spattern A) (x : striple A) : Prop :=
    match p, x with
    | PRel s p o, TRel s' p' o' => open s s' /\ open p p' /\ open o o'
    | PType s c, TType s' c' => open s s' /\ open c c'
    | PData t dt s p ws, TData t' dt' s' p' ws' => t = t' /\ dt = dt' /\ open s s' /\ open p p' /\ open ws ws'
    | _, _ => False
    end.

  (** Values that are not NULL; triples and patterns for the given data tables. *)
  Definition proper (v : V) : Prop := same v v = true.
  Definition opt {B} (P : B -> Prop) (x : option B) : Prop := match x with Some b => P b | None => True end.
  Definition proper_entity (e : V * V) : Prop := proper (fst e) /\ proper (snd e).
  Definition proper_values (tabs : list (str * str)) (t dt : str) (ws : list V) : Prop :=
    Forall proper ws /\ forall ocols edt, get_expanded_cols (lit "o") (Some dt) = Ok (ocols, edt) -> List.length ws = List.length ocols.
  Definition proper_triple (tabs : list (str * str)) (x : striple A) : Prop :=
    match x with
    | TRel s p o => proper s /\ proper_entity p /\ proper o
    | TType s c => proper s /\ proper_entity c
    | TData t dt s p ws => In (t, dt) tabs /\ proper s /\ proper_entity p /\ proper_values tabs t dt ws
    end.
  Definition proper_pattern (tabs : list (str * str)) (x : spattern A) : Prop :=
    match x with
    | PRel s p o => opt proper s /\ opt proper_entity p /\ opt proper o
    | PType s c => opt proper s /\ opt proper_entity c
    | PData t dt s p ws => In (t, dt) tabs /\ opt proper s /\ opt proper_entity p /\ opt (proper_values tabs t dt) ws
    end.

  (** What is assumed of the database: equal values are identified; the tables of objects,
      entities and namespaces generate fresh keys; a uniqueness error of the tables of
      relationships and types means that the row is there already; data tables have no
      uniqueness constraint; stored values are the given ones. *)
  Definition accepts (t : str) : Prop := forall rows r, admit_row t rows r <> None.
  Record rules (tabs : list (str * str)) : Prop := {
    r_eq : forall x y, same x y = true -> x = y;
    r_cuds : keeps admit_row (lit "OSP_V1_CUDS") [lit "uid"];
    r_cuds_new : generates same admit_row (lit "OSP_V1_CUDS") (lit "cuds_idx");
    r_cuds_ok : accepts (lit "OSP_V1_CUDS");
    r_ent : keeps admit_row (lit "OSP_V1_ENTITIES") [lit "ns_idx"; lit "name"];
    r_ent_new : generates same admit_row (lit "OSP_V1_ENTITIES") (lit "entity_idx");
    r_ent_ok : accepts (lit "OSP_V1_ENTITIES");
    r_ns : keeps admit_row (lit "OSP_V1_NAMESPACES") [lit "namespace"];
    r_ns_new : generates same admit_row (lit "OSP_V1_NAMESPACES") (lit "ns_idx");
    r_ns_ok : accepts (lit "OSP_V1_NAMESPACES");
    r_rel : keeps admit_row (lit "OSP_V1_RELATIONS") [lit "s"; lit "p"; lit "o"];
    r_rel_dup : forall rows r, admit_row (lit "OSP_V1_RELATIONS") rows r = None -> exists q, In q rows
      /\ q (lit "s") = r (lit "s") /\ q (lit "p") = r (lit "p") /\ q (lit "o") = r (lit "o");
    r_type : keeps admit_row (lit "OSP_V1_TYPES") [lit "s"; lit "o"];
    r_type_dup : forall rows r, admit_row (lit "OSP_V1_TYPES") rows r = None -> exists q, In q rows
      /\ q (lit "s") = r (lit "s") /\ q (lit "o") = r (lit "o");
    r_data : forall t dt ocols edt, In (t, dt) tabs -> get_expanded_cols (lit "o") (Some dt) = Ok (ocols, edt) ->
      keeps admit_row t (lit "s" :: lit "p" :: ocols) /\ accepts t }.

  (** The state of the session between operations. *)
  Definition ent_refs : list (str * (str * str)) := [(lit "ns_idx", (lit "OSP_V1_NAMESPACES", lit "ns_idx"))].
  Record good_db (tabs : list (str * str)) (db : database V) : Prop := {
    g_shape : shape db;
    g_keys : unique_keys same db;
    g_rel : refers same db (lit "OSP_V1_RELATIONS") rel_refs;
    g_type : refers same db (lit "OSP_V1_TYPES") type_refs;
    g_data : forall t dt ocols edt, In (t, dt) tabs -> get_expanded_cols (lit "o") (Some dt) = Ok (ocols, edt) ->
      has_table db t (lit "s" :: lit "p" :: ocols) /\ refers same db t data_refs
      /\ forall r c, In r (rows_of db t) -> In c ocols -> proper (r c);
    g_ns : forall r, In r (rows_of db (lit "OSP_V1_NAMESPACES")) -> proper (r (lit "ns_idx")) /\ proper (r (lit "namespace"));
    g_ns_keys : forall r r', In r (rows_of db (lit "OSP_V1_NAMESPACES")) -> In r' (rows_of db (lit "OSP_V1_NAMESPACES")) ->
      (r (lit "ns_idx") = r' (lit "ns_idx") <-> r (lit "namespace") = r' (lit "namespace"));
    g_ent : refers same db (lit "OSP_V1_ENTITIES") ent_refs }.
  Definition good (tabs : list (str * str)) (s : sqls A) : Prop :=
    good_db tabs (q_db s) /\ forall i n, In (i, n) (q_ns s) <-> ns_is (q_db s) i n.
  (** ... while a namespace is being added: the cache may lack rows. *)
  Definition nearly (tabs : list (str * str)) (s : sqls A) : Prop :=
    good_db tabs (q_db s) /\ forall i n, In (i, n) (q_ns s) -> ns_is (q_db s) i n.
End Spec.

Section Proofs.
  Context {A : Type} (null : nd A) (same : nd A -> nd A -> bool)
    (admit_row : str -> list (row (nd A)) -> row (nd A) -> option (row (nd A)))
    (as_set : list (cond A) -> list (cond A)) (Has : set_order as_set)
    (tabs : list (str * str)) (Htabs : tables_ok tabs) (Hr : rules same admit_row tabs).
  Notation V := (nd A).
  Notation holds := (holds same tabs).
  Notation good := (good same tabs).
  Notation good_db := (good_db same tabs).
  Notation proper := (proper same).
  Notation CUDS := (lit "OSP_V1_CUDS").
  Notation ENT := (lit "OSP_V1_ENTITIES").
  Notation NS := (lit "OSP_V1_NAMESPACES").
  Notation REL := (lit "OSP_V1_RELATIONS").
  Notation TYP := (lit "OSP_V1_TYPES").

  Lemma same_eq x y : same x y = true -> x = y.
  Proof. apply (r_eq _ _ _ Hr). Qed.
  Lemma cmp : comparison same.
  Proof.
    split.
    - intros x y H. pose proof (same_eq _ _ H) as ->. exact H.
    - intros x y z H1 H2. now pose proof (same_eq _ _ H1) as ->.
  Qed.
  Lemma same_l x y : same x y = true -> proper x.
  Proof. intros H. pose proof (same_eq _ _ H) as ->. exact H. Qed.
  Lemma same_r' x y : same x y = true -> proper y.
  Proof. intros H. pose proof (same_eq _ _ H) as <-. exact H. Qed.

  (** *** Frames *)
  Lemma rows_same (db db' : database V) t : db' t = db t -> rows_of db' t = rows_of db t.
  Proof. intros H. unfold rows_of. now rewrite H. Qed.
  Lemma ns_is_same (db db' : database V) i n : db' NS = db NS -> (ns_is db' i n <-> ns_is db i n).
  Proof. intros H. unfold ns_is. now rewrite (rows_same _ _ _ H). Qed.
  Lemma rel_same (db db' : database V) s i nm o : db' CUDS = db CUDS -> db' ENT = db ENT -> db' REL = db REL ->
    (stored_rel same db' s i nm o <-> stored_rel same db s i nm o).
  Proof. intros H1 H2 H3. unfold stored_rel. now rewrite (rows_same _ _ _ H1), (rows_same _ _ _ H2), (rows_same _ _ _ H3). Qed.
  Lemma type_same (db db' : database V) s i nm : db' CUDS = db CUDS -> db' ENT = db ENT -> db' TYP = db TYP ->
    (stored_type same db' s i nm <-> stored_type same db s i nm).
  Proof. intros H1 H2 H3. unfold stored_type. now rewrite (rows_same _ _ _ H1), (rows_same _ _ _ H2), (rows_same _ _ _ H3). Qed.
  Lemma data_same (db db' : database V) t ocols s i nm ws : db' CUDS = db CUDS -> db' ENT = db ENT -> db' t = db t ->
    (stored_data same db' t ocols s i nm ws <-> stored_data same db t ocols s i nm ws).
  Proof. intros H1 H2 H3. unfold stored_data. now rewrite (rows_same _ _ _ H1), (rows_same _ _ _ H2), (rows_same _ _ _ H3). Qed.
  Lemma refers_same (db db' : database V) t ks : db' t = db t -> (forall k t' i, In (k, (t', i)) ks -> db' t' = db t') ->
    refers same db t ks -> refers same db' t ks.
  Proof.
    intros H1 H2 H r k t' i Hin Hk. rewrite (rows_same _ _ _ H1) in Hin. rewrite (rows_same _ _ _ (H2 _ _ _ Hk)). eauto.
  Qed.
  Lemma refers_sub (db db' : database V) t ks : (forall r, In r (rows_of db' t) -> In r (rows_of db t)) ->
    (forall k t' i, In (k, (t', i)) ks -> db' t' = db t') -> refers same db t ks -> refers same db' t ks.
  Proof.
    intros H1 H2 H r k t' i Hin Hk. rewrite (rows_same _ _ _ (H2 _ _ _ Hk)). eauto.
  Qed.
  Lemma has_same (db db' : database V) t cols : db' t = db t -> has_table db t cols -> has_table db' t cols.
  Proof. unfold has_table. now intros ->. Qed.
  Lemma keys_same (db db' : database V) : db' CUDS = db CUDS -> db' ENT = db ENT -> unique_keys same db -> unique_keys same db'.
  Proof. intros H1 H2. unfold unique_keys. now rewrite (rows_same _ _ _ H1), (rows_same _ _ _ H2). Qed.
  Lemma data_other t dt : In (t, dt) tabs -> t <> CUDS /\ t <> ENT /\ t <> NS /\ t <> REL /\ t <> TYP.
  Proof.
    intros H. apply (proj1 Htabs) in H as (Hp & _). apply startswith_iff in Hp as (u & ->).
    repeat split; intros Hq; discriminate Hq.
  Qed.
  Lemma ns_idx_fun db i n n' : good_db db -> ns_is db i n -> ns_is db i n' -> n = n'.
  Proof. intros G (r & Hr0 & -> & ->) (r' & Hr1 & E & ->). apply (g_ns_keys _ _ _ G r r' Hr0 Hr1). exact E. Qed.
  Lemma ns_name_fun db i i' n : good_db db -> ns_is db i n -> ns_is db i' n -> i = i'.
  Proof. intros G (r & Hr0 & -> & ->) (r' & Hr1 & -> & E). apply (g_ns_keys _ _ _ G r r' Hr0 Hr1). exact E. Qed.
  Lemma ns_proper db i n : good_db db -> ns_is db i n -> proper i /\ proper n.
  Proof. intros G (r & Hr0 & -> & ->). now apply (g_ns _ _ _ G). Qed.

  (** What preparing an operation changes: no triple; known indexes stay. *)
  Record ext (s s' : sqls A) : Prop := {
    e_good : nearly same tabs s';
    e_holds : forall x, holds (q_db s') x <-> holds (q_db s) x;
    e_cuds : forall u i, cuds_index same (q_db s) u i -> cuds_index same (q_db s') u i;
    e_ent : forall n nm i, entity_index same (q_db s) n nm i -> entity_index same (q_db s') n nm i;
    e_ns : forall i n, ns_is (q_db s) i n -> ns_is (q_db s') i n }.
  Lemma good_nearly s : good s -> nearly same tabs s.
  Proof. intros [G1 G2]. split; [exact G1|]. intros i n H. now apply G2. Qed.
  Lemma ext_refl s : good s -> ext s s.
  Proof. intros G. split; auto; [now apply good_nearly | reflexivity]. Qed.
  Lemma ext_trans s s' s'' : ext s s' -> ext s' s'' -> ext s s''.
  Proof. intros [] []. split; auto. intros x. now rewrite e_holds1, e_holds0. Qed.

  (** *** Loading the namespaces *)
  Lemma load_ok s : good_db (q_db s) -> exists l, load_namespaces null same admit_row as_set s = (Ok tt, SqlS (q_db s) l)
    /\ forall i n, In (i, n) l <-> ns_is (q_db s) i n.
  Proof.
    intros G. destruct (C69_namespaces null same admit_row as_set (q_db s) (g_shape _ _ _ G)) as (rows & E & Hrows).
    unfold load_namespaces, mbind, select, send, mbind, ret. rewrite E. cbn [q_db q_ns]. eexists. split; [reflexivity|].
    intros i n. rewrite in_map_iff. split.
    - intros (r & Er & Hin). apply Hrows in Hin as (q & Hq & ->). cbn [nth] in Er. injection Er as <- <-. exists q. auto.
    - intros (q & Hq & -> & ->). exists [q (lit "ns_idx"); q (lit "namespace")]. split; [reflexivity|]. apply Hrows. eauto.
  Qed.
  Lemma ext_cache s l : good_db (q_db s) -> (forall i n, In (i, n) l -> ns_is (q_db s) i n) -> ext s (SqlS (q_db s) l).
  Proof. intros G Hl. split; cbn [q_db q_ns]; auto; [split; [apply G | exact Hl] | reflexivity]. Qed.
  Lemma cached_idx_in l n i : cached_idx same l n = Some i -> exists n', In (i, n') l /\ same n' n = true.
  Proof.
    unfold cached_idx. destruct (find _ (rev l)) as [(i', n')|] eqn:E; [|discriminate]. intros [= <-].
    apply find_some in E as [Hin Hs]. apply in_rev in Hin. exists n'. auto.
  Qed.
  Lemma cached_idx_none l n i : cached_idx same l n = None -> proper n -> In (i, n) l -> False.
  Proof.
    unfold cached_idx. destruct (find _ (rev l)) eqn:E; [discriminate|]. intros _ Hp Hin.
    apply in_rev in Hin. apply (find_none _ _ E) in Hin. cbn [snd] in Hin. unfold PropSqlSession.proper in Hp. congruence.
  Qed.
  Lemma cached_ns_in l n i : cached_ns same l i = Some n -> exists i', In (i', n) l /\ same i' i = true.
  Proof.
    unfold cached_ns. destruct (find _ l) as [(i', n')|] eqn:E; [|discriminate]. intros [= <-].
    apply find_some in E as [Hin Hs]. exists i'. auto.
  Qed.
  Lemma cached_ns_none l n i : cached_ns same l i = None -> proper i -> In (i, n) l -> False.
  Proof.
    unfold cached_ns. destruct (find _ l) eqn:E; [discriminate|]. intros _ Hp Hin.
    apply (find_none _ _ E) in Hin. cbn [fst] in Hin. unfold PropSqlSession.proper in Hp. congruence.
  Qed.

  Lemma get_ns_ok s i n : good s -> ns_is (q_db s) i n -> get_ns null same admit_row as_set i s = (Ok n, s).
  Proof.
    intros G Hn. destruct (ns_proper _ _ _ (proj1 G) Hn) as [Hpi _]. unfold get_ns.
    destruct (cached_ns same (q_ns s) i) as [n'|] eqn:E.
    - apply cached_ns_in in E as (i' & Hin & Hs). apply same_eq in Hs. subst i'.
      apply (proj2 G) in Hin. now rewrite (ns_idx_fun _ _ _ _ (proj1 G) Hin Hn).
    - destruct (cached_ns_none _ n _ E Hpi). now apply (proj2 G).
  Qed.

  (** A namespace is inserted. *)
  Lemma insert_ns s n : good s -> proper n -> (forall i, ~ ns_is (q_db s) i n) ->
    exists s', insert null same admit_row (lit "OSP_V1_NAMESPACES") [lit "namespace"] [n] s = (Ok tt, s')
      /\ ext s s' /\ exists i, ns_is (q_db s') i n.
  Proof.
    intros G Hp Hno. destruct G as [Gd Gc]. pose proof (g_shape _ _ _ Gd) as (Hc & He & (x & Hx & Hcs) & Ht & Hrl).
    set (db := q_db s) in *.
    destruct (run_insert' null same admit_row db NS [lit "namespace"] [n] x) as [E|(r0 & r & E & Hmap & Had)];
      [cln | clean_all | repeat constructor; intros [] | discriminate | reflexivity | exact Hx
      | intros c [<-|[]]; apply Hcs; cbn [In]; auto | apply (r_ns _ _ _ Hr) | |].
    { rewrite (C67_insert null same admit_row NS [lit "namespace"] [n] db x) in E;
        [|cln | clean_all | discriminate | reflexivity | exact Hx | intros c [<-|[]]; apply Hcs; cbn [In]; auto].
      destruct (admit_row _ _ _) eqn:Ea; [discriminate|]. destruct (r_ns_ok _ _ _ Hr _ _ Ea). }
    cbn [map] in Hmap. injection Hmap as Hn. destruct (r_ns_new _ _ _ Hr _ _ _ Had) as [Hpi Hfresh].
    set (db' := dbset db NS (Some (Table (tcols x) (trows x ++ [r])))) in *.
    exists (SqlS db' (q_ns s)). split; [unfold insert, mbind, send; fold db; rewrite E; reflexivity|].
    assert (Hoth : forall t, t <> NS -> db' t = db t).
    { intros t Hne. unfold db', dbset. now rewrite (proj2 (str_eqb_neq t NS)). }
    assert (Hrows : rows_of db' NS = rows_of db NS ++ [r]).
    { unfold db'. rewrite rows_dbset. unfold rows_of. now rewrite Hx. }
    assert (Hx' : rows_of db NS = trows x) by (unfold rows_of; now rewrite Hx).
    assert (Hup : forall i m, ns_is db i m -> ns_is db' i m).
    { intros i m (q & Hq & E1). exists q. rewrite Hrows. split; [apply in_or_app; auto | exact E1]. }
    assert (NC : CUDS <> NS) by discriminate. assert (NE : ENT <> NS) by discriminate.
    assert (NR : REL <> NS) by discriminate. assert (NT : TYP <> NS) by discriminate.
    assert (Hent : forall e m, In e (rows_of db ENT) -> ns_is db' (e (lit "ns_idx")) m -> ns_is db (e (lit "ns_idx")) m).
    { intros e m He0 (q & Hq & E1 & E2). rewrite Hrows in Hq. apply in_app_or in Hq as [Hq|[<-|[]]]; [exists q; auto|].
      destruct (g_ent _ _ _ Gd e (lit "ns_idx") NS (lit "ns_idx") He0) as (q & Hq & Hs); [now left|].
      rewrite Hx' in Hq. pose proof (Hfresh q Hq) as Hf. rewrite <- E1, (same_eq _ _ Hs) in Hf.
      apply same_r' in Hs. unfold PropSqlSession.proper in Hs. congruence. }
    split.
    - split; cbn [q_db q_ns].
      + split; cbn [q_db q_ns]; [|intros i m Him; apply Hup; now apply Gc].
        split.
        * unfold shape. split; [|split; [|split; [|split]]];
            [now apply (has_same db); [apply Hoth|] | now apply (has_same db); [apply Hoth|] | |
             now apply (has_same db); [apply Hoth|] | now apply (has_same db); [apply Hoth|]].
          unfold has_table, db', dbset. rewrite str_eqb_refl. eexists. split; [reflexivity | exact Hcs].
        * apply (keys_same db); auto. apply (g_keys _ _ _ Gd).
        * apply (refers_same db); auto; [|apply (g_rel _ _ _ Gd)].
          intros k t' i Hk. apply Hoth. cbn [rel_refs In] in Hk. destruct Hk as [Q|[Q|[Q|[]]]]; injection Q as <- <- <-; discriminate.
        * apply (refers_same db); auto; [|apply (g_type _ _ _ Gd)].
          intros k t' i Hk. apply Hoth. cbn [type_refs In] in Hk. destruct Hk as [Q|[Q|[]]]; injection Q as <- <- <-; discriminate.
        * intros t dt ocols edt Hin Eoc. destruct (g_data _ _ _ Gd t dt ocols edt Hin Eoc) as (D1 & D2 & D3).
          destruct (data_other _ _ Hin) as (_ & _ & N & _). split; [|split].
          -- apply (has_same db); auto.
          -- apply (refers_same db); auto. intros k t' i Hk. apply Hoth. cbn [data_refs In] in Hk.
             destruct Hk as [Q|[Q|[]]]; injection Q as <- <- <-; discriminate.
          -- rewrite (rows_same db db' t) by auto. exact D3.
        * intros q Hq. rewrite Hrows in Hq. apply in_app_or in Hq as [Hq|[<-|[]]]; [now apply (g_ns _ _ _ Gd)|].
          split; [exact Hpi | now rewrite Hn].
        * intros q q' Hq Hq'. rewrite Hrows in Hq, Hq'. apply in_app_or in Hq, Hq'.
          assert (Hold : forall q, In q (rows_of db NS) -> q (lit "ns_idx") <> r (lit "ns_idx") /\ q (lit "namespace") <> r (lit "namespace")).
          { intros q0 H0. split.
            - intros Q. rewrite Hx' in H0. pose proof (Hfresh q0 H0) as Hf. rewrite Q in Hf. congruence.
            - intros Q. apply (Hno (q0 (lit "ns_idx"))). exists q0. split; [exact H0|]. split; [reflexivity | congruence]. }
          destruct Hq as [Hq|[<-|[]]], Hq' as [Hq'|[<-|[]]].
          -- now apply (g_ns_keys _ _ _ Gd).
          -- destruct (Hold _ Hq). tauto.
          -- destruct (Hold _ Hq') as [H1 H2]. split; intros Q; [destruct H1 | destruct H2]; auto.
          -- tauto.
        * intros e k t' i He0 Hk. rewrite (rows_same db db' ENT) in He0 by auto.
          destruct (g_ent _ _ _ Gd e k t' i He0 Hk) as (c & Hc0 & Hs). exists c. split; [|exact Hs].
          destruct Hk as [Q|[]]. injection Q as <- <- <-. rewrite Hrows. apply in_or_app. auto.
      + assert (Hst : forall e : row V, In e (rows_of db ENT) -> forall m, ns_is db' (e (lit "ns_idx")) m <-> ns_is db (e (lit "ns_idx")) m).
        { intros e He0 m. split; [now apply Hent | apply Hup]. }
        intros [s' (n', nm) o|s' (n', nm)|t dt s' (n', nm) ws]; cbn [PropSqlSession.holds].
        * split; intros (i & H1 & H2); exists i.
          -- rewrite (rel_same db db') in H2 by auto. split; [|exact H2].
             destruct H2 as (c & e & c' & q & _ & He0 & _ & _ & _ & _ & _ & _ & -> & _). now apply Hst.
          -- split; [now apply Hup|]. rewrite (rel_same db db') by auto. exact H2.
        * split; intros (i & H1 & H2); exists i.
          -- rewrite (type_same db db') in H2 by auto. split; [|exact H2].
             destruct H2 as (c & e & q & _ & He0 & _ & _ & _ & _ & -> & _). now apply Hst.
          -- split; [now apply Hup|]. rewrite (type_same db db') by auto. exact H2.
        * split; intros (Hin & i & ocols & edt & H1 & H3 & H2); (split; [exact Hin|]); exists i, ocols, edt;
            destruct (data_other _ _ Hin) as (_ & _ & N & _).
          -- rewrite (data_same db db') in H2 by auto. split; [|split; [exact H3 | exact H2]].
             destruct H2 as (c & e & q & _ & He0 & _ & _ & _ & _ & -> & _). now apply Hst.
          -- split; [now apply Hup|]. split; [exact H3|]. rewrite (data_same db db') by auto. exact H2.
      + unfold cuds_index. now rewrite (rows_same db db' CUDS) by auto.
      + unfold entity_index. now rewrite (rows_same db db' ENT) by auto.
      + exact Hup.
    - exists (r (lit "ns_idx")). cbn [q_db]. exists r. rewrite Hrows. split; [apply in_or_app; right; now left | auto].
  Qed.

  Lemma get_ns_idx_ok s n : good s -> proper n -> exists i s', get_ns_idx null same admit_row as_set n s = (Ok i, s')
    /\ good s' /\ ext s s' /\ ns_is (q_db s') i n.
  Proof.
    intros G Hp. unfold get_ns_idx. destruct (cached_idx same (q_ns s) n) as [i|] eqn:E.
    - exists i, s. split; [reflexivity|]. split; [exact G|]. split; [now apply ext_refl|]. apply cached_idx_in in E as (n' & Hin & Hs).
      apply same_eq in Hs. subst n'. now apply (proj2 G).
    - destruct (insert_ns s n G Hp) as (s1 & E1 & X1 & i & Hi).
      { intros i Hi. apply (cached_idx_none _ _ i E Hp). now apply (proj2 G). }
      change NAMESPACES_TABLE with NS. unfold mbind at 1. rewrite E1.
      destruct (load_ok s1 (proj1 (e_good _ _ X1))) as (l & El & Hl). unfold mbind at 1. rewrite El. cbn [q_ns].
      assert (X2 : ext s (SqlS (q_db s1) l)).
      { eapply ext_trans; [exact X1|]. apply ext_cache; [apply X1|]. intros j m Hj. now apply Hl. }
      destruct (cached_idx same l n) as [j|] eqn:Ec.
      + exists j, (SqlS (q_db s1) l). split; [reflexivity|]. split; [split; [apply X1 | exact Hl]|]. split; [exact X2|]. cbn [q_db].
        apply cached_idx_in in Ec as (n' & Hin & Hs). apply same_eq in Hs. subst n'. now apply Hl.
      + destruct (cached_idx_none _ _ i Ec Hp). now apply Hl.
  Qed.

  (** *** Indexes of objects and entities *)
  Lemma ext_index s db' t0 : good s -> t0 = CUDS \/ t0 = ENT -> (forall t, t <> t0 -> db' t = q_db s t) ->
    shape db' -> unique_keys same db' -> same_triples same (q_db s) db' ->
    (forall r, In r (rows_of (q_db s) t0) -> In r (rows_of db' t0)) -> refers same db' ENT ent_refs ->
    good (SqlS db' (q_ns s)) /\ ext s (SqlS db' (q_ns s)).
  Proof.
    intros [Gd Gc] Ht0 Hoth Hsh Hk (S1 & S2 & S3) Hup Hent. set (db := q_db s) in *.
    destruct (S1 (g_rel _ _ _ Gd)) as [R1 T1]. destruct (S2 (g_type _ _ _ Gd)) as [R2 T2].
    assert (NN : NS <> t0) by (destruct Ht0 as [-> | ->]; discriminate).
    assert (Hd : forall t dt, In (t, dt) tabs -> t <> t0).
    { intros t dt Hin. destruct (data_other _ _ Hin) as (N1 & N2 & _). destruct Ht0 as [-> | ->]; auto. }
    assert (Hns : forall i n, ns_is db' i n <-> ns_is db i n) by (intros; apply ns_is_same; auto).
    assert (Hrows : forall t r, In r (rows_of db t) -> In r (rows_of db' t)).
    { intros t r Hin. destruct (str_eqb t t0) eqn:E; [apply str_eqb_eq in E; subst t; auto|].
      apply str_eqb_neq in E. rewrite (rows_same db db' t); auto. }
    assert (G' : good_db db').
    { split; auto.
      - intros t dt ocols edt Hin Eoc. destruct (g_data _ _ _ Gd t dt ocols edt Hin Eoc) as (D1 & D2 & D3).
        pose proof (proj1 (proj1 Htabs _ _ Hin)) as Hpre. pose proof (Hd _ _ Hin) as N.
        split; [apply (has_same db); auto|]. split; [exact (proj1 (S3 t ocols Hpre D2))|].
        rewrite (rows_same db db' t) by auto. exact D3.
      - rewrite (rows_same db db' NS) by auto. apply (g_ns _ _ _ Gd).
      - rewrite (rows_same db db' NS) by auto. apply (g_ns_keys _ _ _ Gd). }
    split.
    { split; cbn [q_db q_ns]; [exact G'|]. intros i n. rewrite Hns. apply Gc. }
    split; cbn [q_db q_ns].
    - split; cbn [q_db q_ns]; [exact G'|]. intros i n Hin. apply Hns. now apply Gc.
    - intros [s' (n', nm) o|s' (n', nm)|t dt s' (n', nm) ws]; cbn [PropSqlSession.holds].
      + setoid_rewrite Hns. setoid_rewrite T1. reflexivity.
      + setoid_rewrite Hns. setoid_rewrite T2. reflexivity.
      + split; intros (Hin & i & ocols & edt & H1 & H3 & H2); (split; [exact Hin|]); exists i, ocols, edt;
          destruct (g_data _ _ _ Gd t dt ocols edt Hin H3) as (_ & D2 & _);
          pose proof (proj2 (S3 t ocols (proj1 (proj1 Htabs _ _ Hin)) D2)) as T3.
        * split; [now apply Hns|]. split; [exact H3 | now apply T3].
        * split; [now apply Hns|]. split; [exact H3 | now apply T3].
    - intros u i (c & Hc & H). exists c. split; [now apply Hrows | exact H].
    - intros n nm i (c & Hc & H). exists c. split; [now apply Hrows | exact H].
    - intros i n. apply Hns.
  Qed.

  Lemma get_cuds_idx_ok s u : good s -> proper u -> exists i s', get_cuds_idx null same admit_row as_set u s = (Ok i, s')
    /\ good s' /\ ext s s' /\ cuds_index same (q_db s') u i.
  Proof.
    intros G Hp. pose proof (proj1 G) as Gd. pose proof (g_shape _ _ _ Gd) as Hsh.
    destruct (C69_cuds_index null same admit_row as_set cmp (q_db s) u Hsh (g_keys _ _ _ Gd) Hp
      (r_cuds _ _ _ Hr) (r_cuds_new _ _ _ Hr)) as (rows & E & Hrows).
    unfold get_cuds_idx. unfold mbind at 1, select at 1. unfold mbind at 1. unfold send at 1. rewrite E. cbn [ret q_ns]. unfold ret.
    destruct s as [db ca]. cbn [q_db q_ns] in *. destruct rows as [|y rows].
    - destruct Hrows as [Hno [Hbad|(db' & r & Ei & Hrw & Hoth & Hsh' & Hk' & Hi & Hst)]].
      { exfalso. destruct Hsh as ((x & Hx & Hcs) & _).
        rewrite (C67_insert null same admit_row CUDS [lit "uid"] [u] db x) in Hbad;
          [|cln | clean_all | discriminate | reflexivity | exact Hx | intros c [<-|[]]; apply Hcs; cbn [In]; auto].
        destruct (admit_row _ _ _) eqn:Ea; [discriminate|]. exact (r_cuds_ok _ _ _ Hr _ _ Ea). }
      exists (r (lit "cuds_idx")), (SqlS db' ca). change CUDS_TABLE with CUDS. unfold insert_id, send. cbn [q_db q_ns].
      rewrite Ei. cbn [q_db q_ns].
      assert (Hl : match db' CUDS with Some x => last (trows x) (fun _ => null) (lit "cuds_idx") | None => null end = r (lit "cuds_idx")).
      { unfold rows_of at 1 in Hrw. destruct (db' CUDS) as [x'|]; [|symmetry in Hrw; apply app_eq_nil in Hrw as [_ Hq]; discriminate Hq].
        rewrite Hrw. now rewrite last_last. }
      rewrite Hl. split; [reflexivity|].
      destruct (ext_index (SqlS db ca) db' CUDS G (or_introl eq_refl) Hoth Hsh' Hk' Hst) as [G' X]; cbn [q_db q_ns] in *.
      + intros q Hq. rewrite Hrw. apply in_or_app. auto.
      + apply (refers_same db); [apply Hoth; discriminate | | apply (g_ent _ _ _ Gd)].
        intros k t' i Hk. apply Hoth. destruct Hk as [Q|[]]. injection Q as <- <- <-. discriminate.
      + auto.
    - destruct Hrows as (i & u' & -> & Hi). exists i, (SqlS db ca). split; [reflexivity|]. split; [exact G|].
      split; [now apply ext_refl | exact Hi].
  Qed.

  Lemma get_entity_idx_ok s n nm : good s -> proper n -> proper nm ->
    exists k s', get_entity_idx null same admit_row as_set (n, nm) s = (Ok k, s')
    /\ good s' /\ ext s s' /\ exists i, ns_is (q_db s') i n /\ entity_index same (q_db s') i nm k.
  Proof.
    intros G0 Hp1 Hp2. destruct (get_ns_idx_ok s n G0 Hp1) as (i & s1 & E1 & G & X1 & Hi).
    unfold get_entity_idx, split_namespace. cbn [fst snd]. unfold mbind at 1. unfold mbind at 1. rewrite E1. unfold ret at 1. cbn [fst snd].
    pose proof (proj1 G) as Gd. pose proof (g_shape _ _ _ Gd) as Hsh. destruct (ns_proper _ _ _ Gd Hi) as [Hpi _].
    destruct (C69_entity_index null same admit_row as_set Has cmp (q_db s1) i nm Hsh (g_keys _ _ _ Gd) Hpi Hp2
      (r_ent _ _ _ Hr) (r_ent_new _ _ _ Hr)) as (rows & E & Hrows).
    unfold mbind at 1, select at 1. unfold mbind at 1. unfold send at 1. rewrite E. cbn [ret q_ns]. unfold ret.
    destruct s1 as [db ca]. cbn [q_db q_ns] in *. destruct rows as [|y rows].
    - destruct Hrows as [Hno [Hbad|(db' & r & Ei & Hrw & Hoth & Hsh' & Hk' & Hj & Hst)]].
      { exfalso. destruct Hsh as (_ & (x & Hx & Hcs) & _).
        rewrite (C67_insert null same admit_row ENT [lit "ns_idx"; lit "name"] [i; nm] db x) in Hbad;
          [|cln | clean_all | discriminate | reflexivity | exact Hx | intros c [<-|[<-|[]]]; apply Hcs; cbn [In]; auto].
        destruct (admit_row _ _ _) eqn:Ea; [discriminate|]. exact (r_ent_ok _ _ _ Hr _ _ Ea). }
      exists (r (lit "entity_idx")), (SqlS db' ca). change ENTITIES_TABLE with ENT. unfold insert_id, send. cbn [q_db q_ns].
      rewrite Ei. cbn [q_db q_ns].
      assert (Hl : match db' ENT with Some x => last (trows x) (fun _ => null) (lit "entity_idx") | None => null end = r (lit "entity_idx")).
      { unfold rows_of at 1 in Hrw. destruct (db' ENT) as [x'|]; [|symmetry in Hrw; apply app_eq_nil in Hrw as [_ Hq]; discriminate Hq].
        rewrite Hrw. now rewrite last_last. }
      rewrite Hl. split; [reflexivity|].
      assert (Hns : ns_is db' i n) by (apply (ns_is_same db); [apply Hoth; discriminate | exact Hi]).
      destruct (ext_index (SqlS db ca) db' ENT G (or_intror eq_refl) Hoth Hsh' Hk' Hst) as [G' X]; cbn [q_db q_ns] in *.
      + intros q Hq. rewrite Hrw. apply in_or_app. auto.
      + intros q k t' j Hq Hk. destruct Hk as [Q|[]]. injection Q as <- <- <-. rewrite (rows_same db db' NS) by (apply Hoth; discriminate).
        rewrite Hrw in Hq. apply in_app_or in Hq as [Hq|[<-|[]]].
        * apply (g_ent _ _ _ Gd q (lit "ns_idx") NS (lit "ns_idx") Hq). now left.
        * destruct Hi as (q & Hq & Q1 & Q2). exists q. split; [exact Hq|]. rewrite <- Q1.
          destruct Hj as (e & He & He1 & He2 & He3).
          (* the new row is the row with its index *)
          assert (Hlast : In r (rows_of db' ENT)) by (rewrite Hrw; apply in_or_app; right; now left).
          destruct Hk' as [_ Hk']. specialize (Hk' e r He Hlast). apply Hk' in He3 as [H1 _].
          rewrite <- (same_eq _ _ H1), (same_eq _ _ He1). exact Hpi.
      + split; [exact G'|]. split; [eapply ext_trans; eauto|]. exists i. auto.
    - destruct Hrows as (k & n' & m' & -> & Hk). exists k, (SqlS db ca). split; [reflexivity|]. split; [exact G|].
      split; [exact X1|]. exists i. auto.
  Qed.

  (** *** One changed table *)
  Lemma mbind_ok {B C} (m : M (A:=A) B) (f : B -> M C) s b s' : m s = (Ok b, s') -> mbind m f s = f b s'.
  Proof. intros H. unfold mbind. now rewrite H. Qed.
  Lemma good_change s db' T : good s -> T <> CUDS -> T <> ENT -> T <> NS -> (forall t, t <> T -> db' t = q_db s t) ->
    shape db' -> (T = REL -> refers same db' REL rel_refs) -> (T = TYP -> refers same db' TYP type_refs) ->
    (forall dt ocols edt, In (T, dt) tabs -> get_expanded_cols (lit "o") (Some dt) = Ok (ocols, edt) ->
       has_table db' T (lit "s" :: lit "p" :: ocols) /\ refers same db' T data_refs
       /\ forall r c, In r (rows_of db' T) -> In c ocols -> proper (r c)) ->
    good (SqlS db' (q_ns s)).
  Proof.
    intros [Gd Gc] NC NE NN Hoth Hsh HR HT HD. set (db := q_db s) in *.
    assert (Hns : forall i n, ns_is db' i n <-> ns_is db i n) by (intros; apply ns_is_same; auto).
    split; cbn [q_db q_ns]; [|intros i n; rewrite Hns; apply Gc].
    split; auto.
    - apply (keys_same db); auto. apply (g_keys _ _ _ Gd).
    - destruct (str_eqb T REL) eqn:E; [apply str_eqb_eq in E; auto|]. apply str_eqb_neq in E.
      apply (refers_same db); auto; [|apply (g_rel _ _ _ Gd)].
      intros k t' i Hk. apply Hoth. cbn [rel_refs In] in Hk. destruct Hk as [Q|[Q|[Q|[]]]]; injection Q as <- <- <-; auto.
    - destruct (str_eqb T TYP) eqn:E; [apply str_eqb_eq in E; auto|]. apply str_eqb_neq in E.
      apply (refers_same db); auto; [|apply (g_type _ _ _ Gd)].
      intros k t' i Hk. apply Hoth. cbn [type_refs In] in Hk. destruct Hk as [Q|[Q|[]]]; injection Q as <- <- <-; auto.
    - intros t dt ocols edt Hin Eoc. destruct (str_eqb t T) eqn:E; [apply str_eqb_eq in E; subst t; eauto|].
      apply str_eqb_neq in E. destruct (g_data _ _ _ Gd t dt ocols edt Hin Eoc) as (D1 & D2 & D3). split; [|split].
      + apply (has_same db); auto.
      + apply (refers_same db); auto. intros k t' i Hk. apply Hoth. cbn [data_refs In] in Hk.
        destruct Hk as [Q|[Q|[]]]; injection Q as <- <- <-; auto.
      + rewrite (rows_same db db' t) by auto. exact D3.
    - rewrite (rows_same db db' NS) by auto. apply (g_ns _ _ _ Gd).
    - rewrite (rows_same db db' NS) by auto. apply (g_ns_keys _ _ _ Gd).
    - apply (refers_same db); auto; [|apply (g_ent _ _ _ Gd)].
      intros k t' i Hk. apply Hoth. destruct Hk as [Q|[]]. injection Q as <- <- <-. auto.
  Qed.
  Lemma cuds_ref (db : database V) u i : cuds_index same db u i -> exists c, In c (rows_of db CUDS) /\ same i (c (lit "cuds_idx")) = true.
  Proof. intros (c & Hc & _ & H). exists c. split; [exact Hc|]. now apply cmp. Qed.
  Lemma ent_ref (db : database V) n nm i : entity_index same db n nm i -> exists c, In c (rows_of db ENT) /\ same i (c (lit "entity_idx")) = true.
  Proof. intros (c & Hc & _ & _ & H). exists c. split; [exact Hc|]. now apply cmp. Qed.
  Lemma cuds_known (db : database V) u i : cuds_index same db u i -> known_cuds db u.
  Proof. intros (c & Hc & H & _). exists c. split; [exact Hc|]. symmetry. now apply same_eq. Qed.
  Lemma ent_known (db : database V) n nm i : entity_index same db n nm i -> known_entity db n nm.
  Proof. intros (c & Hc & H1 & H2 & _). exists c. split; [exact Hc|]. split; symmetry; now apply same_eq. Qed.

  (** Adding a triple adds exactly this triple. *)
  Theorem C71_add : forall s x, good s -> proper_triple same tabs x ->
    exists s', add null same admit_row as_set x s = (Ok tt, s') /\ good s'
      /\ forall y, holds (q_db s') y <-> holds (q_db s) y \/ y = x.
  Proof.
    intros s [u (n, nm) o|u (n, nm)|t dt u (n, nm) ws] G Hp.
    - destruct Hp as (Pu & [Pn Pm] & Po). cbn [fst snd] in Pn, Pm.
      destruct (get_cuds_idx_ok s u G Pu) as (si & s1 & E1 & G1 & X1 & I1).
      destruct (get_entity_idx_ok s1 n nm G1 Pn Pm) as (pi & s2 & E2 & G2 & X2 & i & N2 & I2).
      destruct (get_cuds_idx_ok s2 o G2 Po) as (oi & s3 & E3 & G3 & X3 & I3).
      pose proof (ext_trans _ _ _ X1 (ext_trans _ _ _ X2 X3)) as X. clear X1.
      apply (e_cuds _ _ X2), (e_cuds _ _ X3) in I1. apply (e_ent _ _ X3) in I2. apply (e_ns _ _ X3) in N2. clear X2 X3.
      pose proof (proj1 G3) as Gd. set (db := q_db s3) in *.
      destruct (C69_add_rel null same admit_row cmp db u i nm o si pi oi (g_shape _ _ _ Gd) (g_keys _ _ _ Gd) I1 I2 I3
        (r_rel _ _ _ Hr)) as (cols & Ec & Hres).
      assert (Ecols : cols = [lit "s"; lit "p"; lit "o"]) by (vm_compute in Ec; injection Ec as <-; reflexivity).
      unfold add. rewrite (mbind_ok _ _ _ _ _ E1), (mbind_ok _ _ _ _ _ E2), (mbind_ok _ _ _ _ _ E3).
      change RELATIONSHIP_TABLE with REL. rewrite Ec. unfold lift. unfold mbind at 1. unfold insert, mbind, send. fold db.
      cbv zeta in Hres. pose proof (g_shape _ _ _ Gd) as (_ & _ & _ & _ & (x & Hx & Hcs)).
      destruct Hres as [Hu|(db' & Ed & Hoth & Hsh & Hst)].
      + rewrite Hu. exists s3. split; [reflexivity|]. split; [exact G3|]. intros y. rewrite (e_holds _ _ X).
        split; [now left|]. intros [H|H]; [exact H|]. subst y. rewrite <- (e_holds _ _ X). fold db. exists i. split; [exact N2|].
        rewrite Ecols in Hu. rewrite (C67_insert null same admit_row REL [lit "s"; lit "p"; lit "o"] [si; pi; oi] db x) in Hu;
          [|cln | clean_all | discriminate | reflexivity | exact Hx | exact Hcs].
        destruct (admit_row _ _ _) eqn:Ea; [discriminate|].
        destruct (r_rel_dup _ _ _ Hr _ _ Ea) as (q & Hq & Q1 & Q2 & Q3). clear Hu Ea.
        change (q (lit "s") = si) in Q1. change (q (lit "p") = pi) in Q2. change (q (lit "o") = oi) in Q3.
        destruct I1 as (c & Hc & C1 & C2), I2 as (e & He & J1 & J2 & J3), I3 as (c' & Hc' & C3 & C4).
        exists c, e, c', q. split; [exact Hc|]. split; [exact He|]. split; [exact Hc'|].
        split; [unfold rows_of; now rewrite Hx|]. rewrite Q1, Q2, Q3.
        split; [now apply cmp|]. split; [now apply cmp|]. split; [now apply cmp|].
        repeat split; symmetry; now apply same_eq.
      + rewrite Ed. exists (SqlS db' (q_ns s3)). split; [reflexivity|]. split.
        * apply (good_change s3 db' REL); auto; try discriminate.
          2: { intros dt ocols edt Hin. destruct (data_other _ _ Hin) as (_ & _ & _ & N & _). now destruct N. }
          intros _. rewrite Ecols in Ed.
          destruct (run_insert null same admit_row db REL [lit "s"; lit "p"; lit "o"] [si; pi; oi] x) as [Eb|(r & Er & Hm)];
            [cln | clean_all | repeat constructor; cbn [In]; intuition discriminate | discriminate | reflexivity | exact Hx | exact Hcs
            | apply (r_rel _ _ _ Hr) | rewrite Eb in Ed; discriminate|].
          rewrite Ed in Er. injection Er as Er. cbn [map] in Hm. injection Hm as M1 M2 M3.
          intros q k t' j Hq Hk.
          assert (Ht' : t' <> REL) by (cbn [rel_refs In] in Hk; destruct Hk as [Q|[Q|[Q|[]]]]; injection Q as <- <- <-; discriminate).
          rewrite (rows_same db db' t') by auto.
          rewrite Er, rows_dbset in Hq. cbn [trows] in Hq. apply in_app_or in Hq as [Hq|[<-|[]]].
          -- apply (g_rel _ _ _ Gd q k t' j); [unfold rows_of; now rewrite Hx | exact Hk].
          -- cbn [rel_refs In] in Hk. destruct Hk as [Q|[Q|[Q|[]]]]; injection Q as <- <- <-; rewrite ?M1, ?M2, ?M3;
               [eapply cuds_ref; eauto | eapply ent_ref; eauto | eapply cuds_ref; eauto].
        * intros y. rewrite <- (e_holds _ _ X). cbn [q_db]. fold db.
          assert (Hns : forall j m, ns_is db' j m <-> ns_is db j m) by (intros; apply ns_is_same, Hoth; discriminate).
          destruct y as [u' (n', nm') o'|u' (n', nm')|t' dt' u' (n', nm') ws']; cbn [PropSqlSession.holds].
          -- setoid_rewrite Hns. setoid_rewrite Hst. split.
             ++ intros (j & Hj & [H|(_ & _ & _ & H1 & H2 & H3 & H4)]); [left; eauto|]. right.
                apply same_eq in H1, H2, H3, H4. subst u' j nm' o'. now rewrite (ns_idx_fun _ _ _ _ Gd Hj N2).
             ++ intros [(j & Hj & H)|H]; [eauto|]. injection H as -> -> -> ->. exists i. split; [exact N2|]. right.
                split; [eapply cuds_known; eauto|]. split; [eapply ent_known; eauto|]. split; [eapply cuds_known; eauto|].
                split; [exact Pu|]. split; [exact (proj1 (ns_proper _ _ _ Gd N2))|]. split; [exact Pm | exact Po].
          -- setoid_rewrite Hns. setoid_rewrite (type_same db db'); [|apply Hoth; discriminate..].
             split; [now left | intros [H|H]; [exact H | discriminate H]].
          -- assert (Hd : forall ocols j, In (t', dt') tabs -> (stored_data same db' t' ocols u' j nm' ws' <-> stored_data same db t' ocols u' j nm' ws')).
             { intros ocols j Hin. destruct (data_other _ _ Hin) as (_ & _ & _ & N & _). apply data_same; apply Hoth; [discriminate..|exact N]. }
             split.
             ++ intros (Hin & j & ocols & edt & H1 & H2 & H3). left. split; [exact Hin|]. exists j, ocols, edt.
                split; [now apply Hns|]. split; [exact H2 | now apply Hd].
             ++ intros [(Hin & j & ocols & edt & H1 & H2 & H3)|H]; [|discriminate H]. split; [exact Hin|]. exists j, ocols, edt.
                split; [now apply Hns|]. split; [exact H2 | now apply Hd].
    - destruct Hp as (Pu & [Pn Pm]). cbn [fst snd] in Pn, Pm.
      destruct (get_cuds_idx_ok s u G Pu) as (si & s1 & E1 & G1 & X1 & I1).
      destruct (get_entity_idx_ok s1 n nm G1 Pn Pm) as (pi & s3 & E2 & G3 & X2 & i & N2 & I2).
      pose proof (ext_trans _ _ _ X1 X2) as X. clear X1.
      apply (e_cuds _ _ X2) in I1. clear X2.
      pose proof (proj1 G3) as Gd. set (db := q_db s3) in *.
      destruct (C69_add_type null same admit_row cmp db u i nm si pi XSD_integer (g_shape _ _ _ Gd) (g_keys _ _ _ Gd) I1 I2
        (r_type _ _ _ Hr)) as (cols & Ec & Hres).
      assert (Ecols : cols = [lit "s"; lit "o"]) by (vm_compute in Ec; injection Ec as <-; reflexivity).
      unfold add. rewrite (mbind_ok _ _ _ _ _ E1), (mbind_ok _ _ _ _ _ E2).
      change TYPES_TABLE with TYP. rewrite Ec. unfold lift. unfold mbind at 1. unfold insert, mbind, send. fold db.
      cbv zeta in Hres. pose proof (g_shape _ _ _ Gd) as (_ & _ & _ & (x & Hx & Hcs) & _).
      destruct Hres as [Hu|(db' & Ed & Hoth & Hsh & Hst)].
      + rewrite Hu. exists s3. split; [reflexivity|]. split; [exact G3|]. intros y. rewrite (e_holds _ _ X).
        split; [now left|]. intros [H|H]; [exact H|]. subst y. rewrite <- (e_holds _ _ X). fold db. exists i. split; [exact N2|].
        rewrite Ecols in Hu. rewrite (C67_insert null same admit_row TYP [lit "s"; lit "o"] [si; pi] db x) in Hu;
          [|cln | clean_all | discriminate | reflexivity | exact Hx | exact Hcs].
        destruct (admit_row _ _ _) eqn:Ea; [discriminate|].
        destruct (r_type_dup _ _ _ Hr _ _ Ea) as (q & Hq & Q1 & Q2). clear Hu Ea.
        change (q (lit "s") = si) in Q1. change (q (lit "o") = pi) in Q2.
        destruct I1 as (c & Hc & C1 & C2), I2 as (e & He & J1 & J2 & J3).
        exists c, e, q. split; [exact Hc|]. split; [exact He|].
        split; [unfold rows_of; now rewrite Hx|]. rewrite Q1, Q2.
        split; [now apply cmp|]. split; [now apply cmp|].
        repeat split; symmetry; now apply same_eq.
      + rewrite Ed. exists (SqlS db' (q_ns s3)). split; [reflexivity|]. split.
        * apply (good_change s3 db' TYP); auto; try discriminate.
          2: { intros dt ocols edt Hin. destruct (data_other _ _ Hin) as (_ & _ & _ & _ & N). now destruct N. }
          intros _. rewrite Ecols in Ed.
          destruct (run_insert null same admit_row db TYP [lit "s"; lit "o"] [si; pi] x) as [Eb|(r & Er & Hm)];
            [cln | clean_all | repeat constructor; cbn [In]; intuition discriminate | discriminate | reflexivity | exact Hx | exact Hcs
            | apply (r_type _ _ _ Hr) | rewrite Eb in Ed; discriminate|].
          rewrite Ed in Er. injection Er as Er. cbn [map] in Hm. injection Hm as M1 M2.
          intros q k t' j Hq Hk.
          assert (Ht' : t' <> TYP) by (cbn [type_refs In] in Hk; destruct Hk as [Q|[Q|[]]]; injection Q as <- <- <-; discriminate).
          rewrite (rows_same db db' t') by auto.
          rewrite Er, rows_dbset in Hq. cbn [trows] in Hq. apply in_app_or in Hq as [Hq|[<-|[]]].
          -- apply (g_type _ _ _ Gd q k t' j); [unfold rows_of; now rewrite Hx | exact Hk].
          -- cbn [type_refs In] in Hk. destruct Hk as [Q|[Q|[]]]; injection Q as <- <- <-; rewrite ?M1, ?M2;
               [eapply cuds_ref; eauto | eapply ent_ref; eauto].
        * intros y. rewrite <- (e_holds _ _ X). cbn [q_db]. fold db.
          assert (Hns : forall j m, ns_is db' j m <-> ns_is db j m) by (intros; apply ns_is_same, Hoth; discriminate).
          destruct y as [u' (n', nm') o'|u' (n', nm')|t' dt' u' (n', nm') ws']; cbn [PropSqlSession.holds].
          -- setoid_rewrite Hns. setoid_rewrite (rel_same db db'); [|apply Hoth; discriminate..].
             split; [now left | intros [H|H]; [exact H | discriminate H]].
          -- setoid_rewrite Hns. setoid_rewrite Hst. split.
             ++ intros (j & Hj & [H|(_ & _ & H1 & H2 & H3)]); [left; eauto|]. right.
                apply same_eq in H1, H2, H3. subst u' j nm'. now rewrite (ns_idx_fun _ _ _ _ Gd Hj N2).
             ++ intros [(j & Hj & H)|H]; [eauto|]. injection H as -> -> ->. exists i. split; [exact N2|]. right.
                split; [eapply cuds_known; eauto|]. split; [eapply ent_known; eauto|].
                split; [exact Pu|]. split; [exact (proj1 (ns_proper _ _ _ Gd N2)) | exact Pm].
          -- assert (Hd : forall ocols j, In (t', dt') tabs -> (stored_data same db' t' ocols u' j nm' ws' <-> stored_data same db t' ocols u' j nm' ws')).
             { intros ocols j Hin. destruct (data_other _ _ Hin) as (_ & _ & _ & _ & N). apply data_same; apply Hoth; [discriminate..|exact N]. }
             split.
             ++ intros (Hin & j & ocols & edt & H1 & H2 & H3). left. split; [exact Hin|]. exists j, ocols, edt.
                split; [now apply Hns|]. split; [exact H2 | now apply Hd].
             ++ intros [(Hin & j & ocols & edt & H1 & H2 & H3)|H]; [|discriminate H]. split; [exact Hin|]. exists j, ocols, edt.
                split; [now apply Hns|]. split; [exact H2 | now apply Hd].
    - destruct Hp as (Hin & Pu & [Pn Pm] & Pw & Pl). cbn [fst snd] in Pn, Pm.
      destruct (proj1 Htabs _ _ Hin) as (Hpre & Hcl & ocols & edt & Eoc). specialize (Pl _ _ Eoc).
      destruct (data_other _ _ Hin) as (N1 & N2' & N3 & N4 & N5).
      destruct (get_cuds_idx_ok s u G Pu) as (si & s1 & E1 & G1 & X1 & I1).
      destruct (get_entity_idx_ok s1 n nm G1 Pn Pm) as (pi & s3 & E2 & G3 & X2 & i & N2 & I2).
      pose proof (ext_trans _ _ _ X1 X2) as X. clear X1.
      apply (e_cuds _ _ X2) in I1. clear X2.
      pose proof (proj1 G3) as Gd. set (db := q_db s3) in *.
      destruct (g_data _ _ _ Gd _ _ _ _ Hin Eoc) as (D1 & D2 & D3).
      destruct (r_data _ _ _ Hr _ _ _ _ Hin Eoc) as (K1 & K2).
      destruct (C69_add_data null same admit_row cmp db u i nm ws si pi t dt ocols edt (g_shape _ _ _ Gd) (g_keys _ _ _ Gd)
        Hpre Hcl Eoc D1 Pl I1 I2 K1) as (cols & Ec & Hres).
      assert (Ecols : cols = lit "s" :: lit "p" :: ocols).
      { unfold add_columns in Ec. rewrite (proj2 (str_eqb_neq t TYPES_TABLE) N5), Eoc in Ec. cbn [rmap fst] in Ec. congruence. }
      unfold add. rewrite (mbind_ok _ _ _ _ _ E1), (mbind_ok _ _ _ _ _ E2).
      rewrite Ec. unfold lift. unfold mbind at 1. unfold insert, mbind, send. fold db.
      cbv zeta in Hres. destruct D1 as (x & Hx & Hcs). destruct (expanded_cols_clean _ _ _ Eoc) as (Hoc & Ns & Np).
      destruct (expanded_cols_form _ _ _ Eoc) as (_ & Hnd & _).
      assert (Hlen : List.length (lit "s" :: lit "p" :: ocols) = List.length (si :: pi :: ws)) by (cbn; lia).
      destruct Hres as [Hu|(db' & Ed & Hoth & Hsh & Hhas & Hst)].
      + exfalso. rewrite Ecols in Hu. rewrite (C67_insert null same admit_row t (lit "s" :: lit "p" :: ocols) (si :: pi :: ws) db x) in Hu;
          [|exact Hcl | constructor; [cln|]; constructor; [cln | exact Hoc] | discriminate | exact Hlen | exact Hx | exact Hcs].
        destruct (admit_row _ _ _) eqn:Ea; [discriminate|]. exact (K2 _ _ Ea).
      + rewrite Ed. exists (SqlS db' (q_ns s3)). split; [reflexivity|]. split.
        * apply (good_change s3 db' t); auto; [intros Q; now destruct N4 | intros Q; now destruct N5|].
          intros dt' ocols' edt' Hin' Eoc'. rewrite <- (proj2 Htabs _ _ _ Hin Hin'), Eoc in Eoc'. injection Eoc' as <- <-.
          split; [exact Hhas|]. rewrite Ecols in Ed.
          destruct (run_insert null same admit_row db t (lit "s" :: lit "p" :: ocols) (si :: pi :: ws) x) as [Eb|(r & Er & Hm)];
            [exact Hcl | constructor; [cln|]; constructor; [cln | exact Hoc] | | discriminate | exact Hlen | exact Hx | exact Hcs
            | exact K1 | rewrite Eb in Ed; discriminate|].
          { constructor; [intros [Q|Q]; [discriminate Q | now apply Ns]|]. constructor; [exact Np | exact Hnd]. }
          rewrite Ed in Er. injection Er as Er. cbn [map] in Hm. injection Hm as M1 M2 M3.
          assert (Hrw : forall q, In q (rows_of db' t) -> In q (rows_of db t) \/ q = r).
          { intros q Hq. rewrite Er, rows_dbset in Hq. cbn [trows] in Hq. unfold rows_of. rewrite Hx.
            apply in_app_or in Hq as [Hq|[<-|[]]]; auto. }
          split.
          -- intros q k t' j Hq Hk.
             assert (Ht' : t' <> t) by (cbn [data_refs In] in Hk; destruct Hk as [Q|[Q|[]]]; injection Q as <- <- <-; auto).
             rewrite (rows_same db db' t') by auto. destruct (Hrw _ Hq) as [Hq' | ->].
             ++ exact (D2 q k t' j Hq' Hk).
             ++ cbn [data_refs In] in Hk. destruct Hk as [Q|[Q|[]]]; injection Q as <- <- <-; rewrite ?M1, ?M2;
                  [eapply cuds_ref; eauto | eapply ent_ref; eauto].
          -- intros q c Hq Hc. destruct (Hrw _ Hq) as [Hq' | ->]; [now apply D3|].
             rewrite Forall_forall in Pw. apply Pw. rewrite <- M3. now apply in_map.
        * intros y. rewrite <- (e_holds _ _ X). cbn [q_db]. fold db.
          assert (Hns : forall j m, ns_is db' j m <-> ns_is db j m) by (intros; apply ns_is_same, Hoth; auto).
          destruct y as [u' (n', nm') o'|u' (n', nm')|t' dt' u' (n', nm') ws']; cbn [PropSqlSession.holds].
          -- setoid_rewrite Hns. setoid_rewrite (rel_same db db'); [|apply Hoth; auto..].
             split; [now left | intros [H|H]; [exact H | discriminate H]].
          -- setoid_rewrite Hns. setoid_rewrite (type_same db db'); [|apply Hoth; auto..].
             split; [now left | intros [H|H]; [exact H | discriminate H]].
          -- destruct (str_eqb t' t) eqn:Et.
             ++ apply str_eqb_eq in Et. subst t'. split.
                ** intros (Hin' & j & ocols' & edt' & H1 & H2 & H3). pose proof (proj2 Htabs _ _ _ Hin Hin') as <-.
                   rewrite Eoc in H2. injection H2 as <- <-. apply Hns in H1.
                   apply Hst in H3 as [H3|(_ & _ & Q1 & Q2 & Q3 & ->)].
                   --- left. split; [exact Hin|]. exists j, ocols, edt. auto.
                   --- right. apply same_eq in Q1, Q2, Q3. subst u' j nm'. now rewrite (ns_idx_fun _ _ _ _ Gd H1 N2).
                ** intros [(Hin' & j & ocols' & edt' & H1 & H2 & H3)|H].
                   --- pose proof (proj2 Htabs _ _ _ Hin Hin') as <-. rewrite Eoc in H2. injection H2 as <- <-.
                       split; [exact Hin|]. exists j, ocols, edt. split; [now apply Hns|]. split; [exact Eoc|]. apply Hst. auto.
                   --- injection H as -> -> -> -> ->. split; [exact Hin|]. exists i, ocols, edt. split; [now apply Hns|].
                       split; [exact Eoc|]. apply Hst. right. split; [eapply cuds_known; eauto|]. split; [eapply ent_known; eauto|].
                       split; [exact Pu|]. split; [exact (proj1 (ns_proper _ _ _ Gd N2))|]. split; [exact Pm | reflexivity].
             ++ apply str_eqb_neq in Et.
                assert (Hd : forall oc j, stored_data same db' t' oc u' j nm' ws' <-> stored_data same db t' oc u' j nm' ws')
                  by (intros oc j; apply data_same; apply Hoth; auto).
                setoid_rewrite Hns. setoid_rewrite Hd.
                split; [now left | intros [H|H]; [exact H | injection H as H _; destruct (Et H)]].
  Qed.

  (** *** Patterns *)
  Definition split_of (db : database V) (p pe : option (V * V)) : Prop :=
    match p, pe with
    | None, None => True
    | Some (n, nm), Some (i, nm') => nm' = nm /\ ns_is db i n
    | _, _ => False
    end.
  Lemma opt_cuds_ok s p : good s -> opt proper p -> exists i s', optM (get_cuds_idx null same admit_row as_set) p s = (Ok i, s')
    /\ good s' /\ ext s s' /\ cuds_indexes same (q_db s') p i.
  Proof.
    intros G Hp. destruct p as [u|]; cbn [optM].
    - destruct (get_cuds_idx_ok s u G Hp) as (i & s1 & E1 & G1 & X1 & I1). exists (Some i), s1.
      rewrite (mbind_ok _ _ _ _ _ E1). split; [reflexivity | auto].
    - exists None, s. split; [reflexivity|]. split; [exact G|]. split; [now apply ext_refl | exact I].
  Qed.
  Lemma opt_ent_ok s p : good s -> opt (proper_entity same) p ->
    exists k s', optM (get_entity_idx null same admit_row as_set) p s = (Ok k, s')
    /\ good s' /\ ext s s' /\ exists pe, split_of (q_db s') p pe /\ entity_indexes same (q_db s') pe k.
  Proof.
    intros G Hp. destruct p as [(n, nm)|]; cbn [optM].
    - destruct Hp as [P1 P2]. destruct (get_entity_idx_ok s n nm G P1 P2) as (k & s1 & E1 & G1 & X1 & i & N1 & I1). exists (Some k), s1.
      rewrite (mbind_ok _ _ _ _ _ E1). split; [reflexivity|]. split; [auto|]. split; [auto|]. exists (Some (i, nm)). cbn. auto.
    - exists None, s. split; [reflexivity|]. split; [exact G|]. split; [now apply ext_refl|]. exists None. split; exact I.
  Qed.
  Lemma opt_split_ok s p : good s -> opt (proper_entity same) p ->
    exists pe s', optM (split_namespace null same admit_row as_set) p s = (Ok pe, s')
    /\ good s' /\ ext s s' /\ split_of (q_db s') p pe.
  Proof.
    intros G Hp. destruct p as [(n, nm)|]; cbn [optM].
    - destruct Hp as [P1 P2]. destruct (get_ns_idx_ok s n G P1) as (i & s1 & E1 & G1 & X1 & N1). exists (Some (i, nm)), s1.
      assert (E2 : split_namespace null same admit_row as_set (n, nm) s = (Ok (i, nm), s1)).
      { unfold split_namespace. cbn [fst snd]. rewrite (mbind_ok _ _ _ _ _ E1). reflexivity. }
      rewrite (mbind_ok _ _ _ _ _ E2). split; [reflexivity|]. split; [auto|]. split; [auto|]. cbn. auto.
    - exists None, s. split; [reflexivity|]. split; [exact G|]. split; [now apply ext_refl | exact I].
  Qed.
  Lemma cuds_indexes_ext s s' p i : ext s s' -> cuds_indexes same (q_db s) p i -> cuds_indexes same (q_db s') p i.
  Proof. intros X. destruct p, i; cbn; auto. apply (e_cuds _ _ X). Qed.
  Lemma entity_indexes_ext s s' p i : ext s s' -> entity_indexes same (q_db s) p i -> entity_indexes same (q_db s') p i.
  Proof. intros X. destruct p as [(?, ?)|], i; cbn; auto. apply (e_ent _ _ X). Qed.
  Lemma split_of_ext s s' p pe : ext s s' -> split_of (q_db s) p pe -> split_of (q_db s') p pe.
  Proof. intros X. destruct p as [(?, ?)|], pe as [(?, ?)|]; cbn; auto. intros [-> H]. split; [reflexivity | now apply (e_ns _ _ X)]. Qed.

  Lemma fits_one_open p v : proper v -> (fits_one same p v <-> open p v).
  Proof.
    intros Hp. unfold fits_one, open. destruct p as [w|].
    - split; [intros H; right; specialize (H _ eq_refl); apply same_eq in H; now subst|].
      intros [H|H]; [discriminate|]. intros w' [= <-]. now injection H as ->.
    - split; [now left | intros _ w; discriminate].
  Qed.
  Lemma fits_two_open db p pe i n nm : good_db db -> split_of db p pe -> ns_is db i n -> proper nm ->
    (fits_two same pe i nm <-> open p (n, nm)).
  Proof.
    intros G Hs Hn Hp. destruct (ns_proper _ _ _ G Hn) as [Hi _]. unfold fits_two, open.
    destruct p as [(n', nm')|], pe as [(i', m')|]; [|destruct Hs|destruct Hs|].
    - destruct Hs as [-> Hn']. split.
      + intros H. destruct (H _ _ eq_refl) as [H1 H2]. apply same_eq in H1, H2. subst i' nm'. right.
        now rewrite (ns_idx_fun _ _ _ _ G Hn Hn').
      + intros [H|H]; [discriminate|]. injection H as -> ->. intros w1 w2 [= <- <-].
        rewrite (ns_name_fun _ _ _ _ G Hn' Hn). auto.
    - split; [now left | intros _ w1 w2; discriminate].
  Qed.
  Lemma fits_all_open p (vs : list V) : Forall proper vs -> (fits_all same p vs <-> open p vs).
  Proof.
    intros Hp. unfold fits_all, open. destruct p as [ws|].
    - split.
      + intros H. right. specialize (H _ eq_refl). f_equal. clear Hp. induction H as [|v w vs ws H _ IH]; [reflexivity|].
        apply same_eq in H. now subst.
      + intros [H|H]; [discriminate|]. injection H as ->. intros ws [= <-]. induction Hp; constructor; auto.
    - split; [now left | intros _ w; discriminate].
  Qed.
  Lemma cuds_row_proper db (c : row V) i : good_db db -> In c (rows_of db CUDS) -> same i (c (lit "cuds_idx")) = true -> proper (c (lit "uid")).
  Proof. intros G Hc H. apply same_r' in H. exact (proj2 (proj1 (g_keys _ _ _ G) c c Hc Hc) H). Qed.
  Lemma ent_row_proper db (e : row V) i : good_db db -> In e (rows_of db ENT) -> same i (e (lit "entity_idx")) = true ->
    proper (e (lit "ns_idx")) /\ proper (e (lit "name")).
  Proof. intros G Hc H. apply same_r' in H. exact (proj2 (proj2 (g_keys _ _ _ G) e e Hc Hc) H). Qed.
  Lemma rel_proper db s i nm o : good_db db -> stored_rel same db s i nm o -> proper s /\ proper nm /\ proper o.
  Proof.
    intros G (c & e & c' & r & H1 & H2 & H3 & _ & M1 & M2 & M3 & -> & -> & -> & ->).
    split; [eapply cuds_row_proper; eauto|]. split; [eapply ent_row_proper; eauto | eapply cuds_row_proper; eauto].
  Qed.
  Lemma type_proper db s i nm : good_db db -> stored_type same db s i nm -> proper s /\ proper nm.
  Proof.
    intros G (c & e & r & H1 & H2 & _ & M1 & M2 & -> & -> & ->).
    split; [eapply cuds_row_proper; eauto | eapply ent_row_proper; eauto].
  Qed.
  Lemma data_proper db t dt ocols edt s i nm ws : good_db db -> In (t, dt) tabs ->
    get_expanded_cols (lit "o") (Some dt) = Ok (ocols, edt) -> stored_data same db t ocols s i nm ws ->
    proper s /\ proper nm /\ Forall proper ws.
  Proof.
    intros G Hin Eoc (c & e & r & H1 & H2 & H3 & M1 & M2 & -> & -> & -> & ->).
    split; [eapply cuds_row_proper; eauto|]. split; [eapply ent_row_proper; eauto|].
    apply Forall_forall. intros v Hv. apply in_map_iff in Hv as (k & <- & Hk).
    now apply (g_data _ _ _ G t dt ocols edt Hin Eoc).
  Qed.

  (** Removing by a pattern removes exactly the triples that fit. *)
  Theorem C71_remove : forall s x, good s -> proper_pattern same tabs x ->
    exists s', remove null same admit_row as_set x s = (Ok tt, s') /\ good s'
      /\ forall y, holds (q_db s') y <-> holds (q_db s) y /\ ~ fits x y.
  Proof.
    intros s [u p o|u p|t dt u p ws] G Hp.
    - destruct Hp as (Pu & Pp & Po).
      destruct (opt_cuds_ok s u G Pu) as (si & s1 & E1 & G1 & X1 & I1).
      destruct (opt_ent_ok s1 p G1 Pp) as (pi & s2 & E2 & G2 & X2 & pe & Sp & I2).
      destruct (opt_cuds_ok s2 o G2 Po) as (oi & s3 & E3 & G3 & X3 & I3).
      pose proof (ext_trans _ _ _ X1 (ext_trans _ _ _ X2 X3)) as X. clear X1.
      apply (cuds_indexes_ext _ _ _ _ X2), (cuds_indexes_ext _ _ _ _ X3) in I1. apply (entity_indexes_ext _ _ _ _ X3) in I2.
      apply (split_of_ext _ _ _ _ X3) in Sp. clear X2 X3.
      pose proof (proj1 G3) as Gd. set (db := q_db s3) in *. pose proof (g_shape _ _ _ Gd) as (_ & _ & _ & _ & (x & Hx & Hcs)).
      destruct (C69_remove_rels null same admit_row as_set Has cmp db u pe o si pi oi (g_shape _ _ _ Gd) (g_keys _ _ _ Gd) I1 I2 I3)
        as (c & db' & Ec & Ed & Hoth & Hsh & Hst).
      unfold remove. rewrite (mbind_ok _ _ _ _ _ E1), (mbind_ok _ _ _ _ _ E2), (mbind_ok _ _ _ _ _ E3).
      change RELATIONSHIP_TABLE with REL. rewrite Ec. unfold lift. unfold mbind at 1. unfold mbind, send. fold db. rewrite Ed.
      exists (SqlS db' (q_ns s3)). split; [reflexivity|]. split.
      + apply (good_change s3 db' REL); auto; try discriminate.
        2: { intros dt ocols edt Hin. destruct (data_other _ _ Hin) as (_ & _ & _ & N & _). now destruct N. }
        intros _. apply (refers_sub db); [| |apply (g_rel _ _ _ Gd)].
        * destruct (remove_rows null same admit_row as_set Has db REL si pi (option_map (fun o => [o]) oi) XSD_integer [lit "o"] (Some XSD_integer) x)
            as (c1 & kept & Ec1 & Ed1 & Hk);
            [reflexivity | cln | vm_compute; reflexivity | exact Hx | exact Hcs | intros w; destruct oi; [intros [= <-]; reflexivity | discriminate]|].
          rewrite Ec in Ec1. injection Ec1 as <-. rewrite Ed in Ed1. injection Ed1 as ->.
          intros r Hr0. rewrite rows_dbset in Hr0. cbn [trows] in Hr0. apply Hk in Hr0 as [Hr0 _]. unfold rows_of. now rewrite Hx.
        * intros k t' i Hk. apply Hoth. cbn [rel_refs In] in Hk. destruct Hk as [Q|[Q|[Q|[]]]]; injection Q as <- <- <-; discriminate.
      + intros y. rewrite <- (e_holds _ _ X). cbn [q_db]. fold db.
        assert (Hns : forall j m, ns_is db' j m <-> ns_is db j m) by (intros; apply ns_is_same, Hoth; discriminate).
        destruct y as [u' (n', nm') o'|u' (n', nm')|t' dt' u' (n', nm') ws']; cbn [PropSqlSession.holds fits].
        * setoid_rewrite Hns. setoid_rewrite Hst.
          assert (Hf : forall j, ns_is db j n' -> stored_rel same db u' j nm' o' ->
            (fits_one same u u' /\ fits_two same pe j nm' /\ fits_one same o o' <-> open u u' /\ open p (n', nm') /\ open o o')).
          { intros j Hj Hs. destruct (rel_proper _ _ _ _ _ Gd Hs) as (Q1 & Q2 & Q3).
            rewrite !fits_one_open, (fits_two_open db p pe j n' nm') by auto. reflexivity. }
          split.
          -- intros (j & Hj & Hs & Hnf). split; [eauto|]. now rewrite <- (Hf j Hj Hs).
          -- intros ((j & Hj & Hs) & Hnf). exists j. rewrite (Hf j Hj Hs). auto.
        * setoid_rewrite Hns. setoid_rewrite (type_same db db'); [|apply Hoth; discriminate..]. tauto.
        * assert (Hd : forall ocols j, In (t', dt') tabs -> (stored_data same db' t' ocols u' j nm' ws' <-> stored_data same db t' ocols u' j nm' ws')).
          { intros ocols j Hin. destruct (data_other _ _ Hin) as (_ & _ & _ & N & _). apply data_same; apply Hoth; [discriminate..|exact N]. }
          split; [intros (Hin & j & ocols & edt & H1 & H2 & H3); split; [|tauto] | intros [(Hin & j & ocols & edt & H1 & H2 & H3) _]];
            (split; [exact Hin|]); exists j, ocols, edt; (split; [now apply Hns|]); (split; [exact H2 | now apply Hd]).
    - destruct Hp as (Pu & Pp).
      destruct (opt_cuds_ok s u G Pu) as (si & s1 & E1 & G1 & X1 & I1).
      destruct (opt_ent_ok s1 p G1 Pp) as (pi & s3 & E2 & G3 & X2 & pe & Sp & I2).
      pose proof (ext_trans _ _ _ X1 X2) as X. clear X1.
      apply (cuds_indexes_ext _ _ _ _ X2) in I1. clear X2.
      pose proof (proj1 G3) as Gd. set (db := q_db s3) in *. pose proof (g_shape _ _ _ Gd) as (_ & _ & _ & (x & Hx & Hcs) & _).
      destruct (C69_remove_types null same admit_row as_set Has cmp db u pe si None pi XSD_integer (g_shape _ _ _ Gd) (g_keys _ _ _ Gd) I1 I2)
        as (c & db' & Ec & Ed & Hoth & Hsh & Hst).
      unfold remove. rewrite (mbind_ok _ _ _ _ _ E1), (mbind_ok _ _ _ _ _ E2).
      change TYPES_TABLE with TYP. rewrite Ec. unfold lift. unfold mbind at 1. unfold mbind, send. fold db. rewrite Ed.
      exists (SqlS db' (q_ns s3)). split; [reflexivity|]. split.
      + apply (good_change s3 db' TYP); auto; try discriminate.
        2: { intros dt ocols edt Hin. destruct (data_other _ _ Hin) as (_ & _ & _ & _ & N). now destruct N. }
        intros _. apply (refers_sub db); [| |apply (g_type _ _ _ Gd)].
        * destruct (remove_types_rows null same admit_row as_set Has db si None pi XSD_integer x Hx Hcs) as (c1 & kept & Ec1 & Ed1 & Hk).
          rewrite Ec in Ec1. injection Ec1 as <-. rewrite Ed in Ed1. injection Ed1 as ->.
          intros r Hr0. rewrite rows_dbset in Hr0. cbn [trows] in Hr0. apply Hk in Hr0 as [Hr0 _]. unfold rows_of. now rewrite Hx.
        * intros k t' i Hk. apply Hoth. cbn [type_refs In] in Hk. destruct Hk as [Q|[Q|[]]]; injection Q as <- <- <-; discriminate.
      + intros y. rewrite <- (e_holds _ _ X). cbn [q_db]. fold db.
        assert (Hns : forall j m, ns_is db' j m <-> ns_is db j m) by (intros; apply ns_is_same, Hoth; discriminate).
        destruct y as [u' (n', nm') o'|u' (n', nm')|t' dt' u' (n', nm') ws']; cbn [PropSqlSession.holds fits].
        * setoid_rewrite Hns. setoid_rewrite (rel_same db db'); [|apply Hoth; discriminate..]. tauto.
        * setoid_rewrite Hns. setoid_rewrite Hst.
          assert (Hf : forall j, ns_is db j n' -> stored_type same db u' j nm' ->
            (fits_one same u u' /\ fits_two same pe j nm' <-> open u u' /\ open p (n', nm'))).
          { intros j Hj Hs. destruct (type_proper _ _ _ _ Gd Hs) as (Q1 & Q2).
            rewrite !fits_one_open, (fits_two_open db p pe j n' nm') by auto. reflexivity. }
          split.
          -- intros (j & Hj & Hs & Hnf). split; [eauto|]. now rewrite <- (Hf j Hj Hs).
          -- intros ((j & Hj & Hs) & Hnf). exists j. rewrite (Hf j Hj Hs). auto.
        * assert (Hd : forall ocols j, In (t', dt') tabs -> (stored_data same db' t' ocols u' j nm' ws' <-> stored_data same db t' ocols u' j nm' ws')).
          { intros ocols j Hin. destruct (data_other _ _ Hin) as (_ & _ & _ & _ & N). apply data_same; apply Hoth; [discriminate..|exact N]. }
          split; [intros (Hin & j & ocols & edt & H1 & H2 & H3); split; [|tauto] | intros [(Hin & j & ocols & edt & H1 & H2 & H3) _]];
            (split; [exact Hin|]); exists j, ocols, edt; (split; [now apply Hns|]); (split; [exact H2 | now apply Hd]).
    - destruct Hp as (Hin & Pu & Pp & Pw).
      destruct (proj1 Htabs _ _ Hin) as (Hpre & Hcl & ocols & edt & Eoc).
      assert (Pl : forall ws', ws = Some ws' -> List.length ws' = List.length ocols).
      { intros ws' ->. destruct Pw as [_ Pw]. eauto. }
      destruct (data_other _ _ Hin) as (N1 & N2 & N3 & N4 & N5).
      destruct (opt_cuds_ok s u G Pu) as (si & s1 & E1 & G1 & X1 & I1).
      destruct (opt_ent_ok s1 p G1 Pp) as (pi & s3 & E2 & G3 & X2 & pe & Sp & I2).
      pose proof (ext_trans _ _ _ X1 X2) as X. clear X1.
      apply (cuds_indexes_ext _ _ _ _ X2) in I1. clear X2.
      pose proof (proj1 G3) as Gd. set (db := q_db s3) in *.
      destruct (g_data _ _ _ Gd _ _ _ _ Hin Eoc) as (D1 & D2 & D3).
      destruct (C69_remove_data null same admit_row as_set Has cmp db u pe ws si pi t dt ocols edt (g_shape _ _ _ Gd) (g_keys _ _ _ Gd)
        Hpre Hcl Eoc D1 Pl I1 I2) as (c & db' & Ec & Ed & Hoth & Hsh & Hhas & Hst).
      unfold remove. rewrite (mbind_ok _ _ _ _ _ E1), (mbind_ok _ _ _ _ _ E2).
      rewrite Ec. unfold lift. unfold mbind at 1. unfold mbind, send. fold db. rewrite Ed.
      destruct D1 as (x & Hx & Hcs).
      destruct (remove_rows null same admit_row as_set Has db t si pi ws dt ocols edt x) as (c1 & kept & Ec1 & Ed1 & Hk);
        [now apply str_eqb_neq | exact Hcl | exact Eoc | exact Hx | exact Hcs | exact Pl |].
      rewrite Ec in Ec1. injection Ec1 as <-.
      assert (Hsub : forall r, In r (rows_of db' t) -> In r (rows_of db t)).
      { rewrite Ed in Ed1. injection Ed1 as ->.
        intros r Hr0. rewrite rows_dbset in Hr0. cbn [trows] in Hr0. apply Hk in Hr0 as [Hr0 _]. unfold rows_of. now rewrite Hx. }
      exists (SqlS db' (q_ns s3)). split; [reflexivity|]. split.
      + apply (good_change s3 db' t); auto; [intros Q; now destruct N4 | intros Q; now destruct N5|].
        intros dt' ocols' edt' Hin' Eoc'. rewrite <- (proj2 Htabs _ _ _ Hin Hin'), Eoc in Eoc'. injection Eoc' as <- <-.
        split; [exact Hhas|]. split; [|auto]. apply (refers_sub db); auto.
        intros k t' i Hk'. apply Hoth. cbn [data_refs In] in Hk'. destruct Hk' as [Q|[Q|[]]]; injection Q as <- <- <-; auto.
      + intros y. rewrite <- (e_holds _ _ X). cbn [q_db]. fold db.
        assert (Hns : forall j m, ns_is db' j m <-> ns_is db j m) by (intros; apply ns_is_same, Hoth; auto).
        destruct y as [u' (n', nm') o'|u' (n', nm')|t' dt' u' (n', nm') ws']; cbn [PropSqlSession.holds fits].
        * setoid_rewrite Hns. setoid_rewrite (rel_same db db'); [|apply Hoth; auto..]. tauto.
        * setoid_rewrite Hns. setoid_rewrite (type_same db db'); [|apply Hoth; auto..]. tauto.
        * destruct (str_eqb t' t) eqn:Et.
          -- apply str_eqb_eq in Et. subst t'.
             assert (Hf : forall j, ns_is db j n' -> stored_data same db t ocols u' j nm' ws' ->
               (fits_one same u u' /\ fits_two same pe j nm' /\ fits_all same ws ws' <-> open u u' /\ open p (n', nm') /\ open ws ws')).
             { intros j Hj Hs. destruct (data_proper _ _ _ _ _ _ _ _ _ Gd Hin Eoc Hs) as (Q1 & Q2 & Q3).
               rewrite !fits_one_open, (fits_two_open db p pe j n' nm'), fits_all_open by auto. reflexivity. }
             split.
             ++ intros (Hin' & j & ocols' & edt' & H1 & H2 & H3). pose proof (proj2 Htabs _ _ _ Hin Hin') as <-.
                rewrite Eoc in H2. injection H2 as <- <-. apply Hns in H1. apply Hst in H3 as [H3 Hnf].
                split; [split; [exact Hin|]; exists j, ocols, edt; auto|].
                intros (_ & _ & Q). apply Hnf. now apply (Hf j).
             ++ intros ((Hin' & j & ocols' & edt' & H1 & H2 & H3) & Hnf). pose proof (proj2 Htabs _ _ _ Hin Hin') as <-.
                rewrite Eoc in H2. injection H2 as <- <-. split; [exact Hin|]. exists j, ocols, edt. split; [now apply Hns|].
                split; [exact Eoc|]. apply Hst. split; [exact H3|]. intros Q. apply Hnf. split; [reflexivity|]. split; [reflexivity|].
                now apply (Hf j).
          -- apply str_eqb_neq in Et.
             assert (Hd : forall oc j, stored_data same db' t' oc u' j nm' ws' <-> stored_data same db t' oc u' j nm' ws')
               by (intros oc j; apply data_same; apply Hoth; auto).
             setoid_rewrite Hns. setoid_rewrite Hd. split; [intros H; split; [exact H | intros (Q & _); now destruct Et] | tauto].
  Qed.

  (** *** Reading *)
  Lemma mapMs_ok {B C} (f : B -> M (A:=A) C) (P : B -> C -> Prop) s l :
    (forall b, In b l -> exists c, f b s = (Ok c, s) /\ P b c) -> exists cs, mapMs f l s = (Ok cs, s) /\ Forall2 P l cs.
  Proof.
    induction l as [|b l IH]; intros H; cbn [mapMs]; [exists []; split; [reflexivity | constructor]|].
    destruct (H b) as (c & E & Hc); [now left|]. destruct IH as (cs & E' & Hcs); [intros b' Hb'; apply H; now right|].
    exists (c :: cs). rewrite (mbind_ok _ _ _ _ _ E), (mbind_ok _ _ _ _ _ E'). split; [reflexivity | now constructor].
  Qed.
  Lemma Forall2_in_r {B C} (P : B -> C -> Prop) l cs c : Forall2 P l cs -> In c cs -> exists b, In b l /\ P b c.
  Proof. induction 1 as [|x y l l' H _ IH]; intros []; [subst; exists x; auto with datatypes|]. destruct IH as (z & ? & ?); auto. exists z. auto with datatypes. Qed.
  Lemma Forall2_in_l {B C} (P : B -> C -> Prop) l cs b : Forall2 P l cs -> In b l -> exists c, In c cs /\ P b c.
  Proof. induction 1 as [|x y l l' H _ IH]; intros []; [subst; exists y; auto with datatypes|]. destruct IH as (z & ? & ?); auto. exists z. auto with datatypes. Qed.
  Lemma entity_ns db (e : row V) : good_db db -> In e (rows_of db ENT) -> exists n, ns_is db (e (lit "ns_idx")) n.
  Proof.
    intros G He. destruct (g_ent _ _ _ G e (lit "ns_idx") NS (lit "ns_idx") He) as (r & Hr0 & H); [now left|].
    exists (r (lit "namespace")), r. split; [exact Hr0|]. split; [now apply same_eq | reflexivity].
  Qed.

  (** Reading by a pattern returns exactly the triples that fit, and changes none. *)
  Theorem C71_query : forall s x, good s -> proper_pattern same tabs x ->
    exists l s', query null same admit_row as_set x s = (Ok l, s') /\ good s'
      /\ (forall y, In y l <-> holds (q_db s) y /\ fits x y)
      /\ (forall y, holds (q_db s') y <-> holds (q_db s) y).
  Proof.
    intros s [u p o|u p|t dt u p ws] G Hp.
    - destruct Hp as (Pu & Pp & Po).
      destruct (opt_split_ok s p G Pp) as (pe & s1 & E1 & G1 & X & Sp). pose proof (proj1 G1) as Gd.
      destruct (C69_select_rels null same admit_row as_set Has (q_db s1) u pe o XSD_integer (g_shape _ _ _ Gd)) as (q & rows & Eq & Ex & Hrows).
      unfold query. rewrite (mbind_ok _ _ _ _ _ E1). change RELATIONSHIP_TABLE with REL. rewrite Eq. unfold lift. unfold mbind at 1.
      assert (Es : select null same admit_row q s1 = (Ok rows, s1)).
      { unfold select, mbind, send. rewrite Ex. now destruct s1. }
      rewrite (mbind_ok _ _ _ _ _ Es).
      destruct (mapMs_ok (row_to_triple null same admit_row as_set (PRel u p o))
        (fun r y => exists s' j n nm o', r = [s'; j; nm; o'] /\ ns_is (q_db s1) j n /\ y = TRel s' (n, nm) o') s1 rows) as (l & El & Hl).
      { intros r Hr0. apply Hrows in Hr0 as (s' & j & nm & o' & -> & Hst & _).
        assert (Hn : exists n, ns_is (q_db s1) j n).
        { destruct Hst as (c & e & c' & r & _ & He & _ & _ & _ & _ & _ & _ & -> & _). now apply entity_ns. }
        destruct Hn as (n & Hn). exists (TRel s' (n, nm) o'). split; [|exists s', j, n, nm, o'; auto].
        cbn [row_to_triple]. rewrite (mbind_ok _ _ _ _ _ (get_ns_ok s1 j n G1 Hn)). reflexivity. }
      exists l, s1. split; [exact El|]. split; [exact G1|]. split; [|apply X].
      assert (Hf : forall s' j n' nm' o', ns_is (q_db s1) j n' -> stored_rel same (q_db s1) s' j nm' o' ->
        (fits_one same u s' /\ fits_two same pe j nm' /\ fits_one same o o' <-> open u s' /\ open p (n', nm') /\ open o o')).
      { intros s' j n' nm' o' Hj Hs. destruct (rel_proper _ _ _ _ _ Gd Hs) as (Q1 & Q2 & Q3).
        rewrite !fits_one_open, (fits_two_open (q_db s1) p pe j n' nm') by auto. reflexivity. }
      intros y. rewrite <- (e_holds _ _ X). split.
      + intros Hy. destruct (Forall2_in_r _ _ _ _ Hl Hy) as (r & Hr0 & s' & j & n & nm & o' & -> & Hn & ->).
        apply Hrows in Hr0 as (s'' & j' & nm' & o'' & [= <- <- <- <-] & Hst & F). cbn [PropSqlSession.holds fits].
        split; [eauto|]. now apply (Hf s' j).
      + intros [Hh F]. destruct y as [s' (n, nm) o'|s' (n, nm)|]; cbn [fits] in F; [|destruct F..].
        destruct Hh as (j & Hn & Hst).
        assert (Hin : In [s'; j; nm; o'] rows). { apply Hrows. exists s', j, nm, o'. split; [reflexivity|]. split; [exact Hst|]. now apply (Hf s' j n). }
        destruct (Forall2_in_l _ _ _ _ Hl Hin) as (y & Hy & s'' & j' & n' & nm' & o'' & [= <- <- <- <-] & Hn' & ->).
        now rewrite (ns_idx_fun _ _ _ _ Gd Hn Hn').
    - destruct Hp as (Pu & Pp).
      destruct (opt_split_ok s p G Pp) as (pe & s1 & E1 & G1 & X & Sp). pose proof (proj1 G1) as Gd.
      destruct (C69_select_types null same admit_row as_set Has (q_db s1) u None pe XSD_integer (g_shape _ _ _ Gd)) as (q & rows & Eq & Ex & Hrows).
      unfold query. rewrite (mbind_ok _ _ _ _ _ E1). change TYPES_TABLE with TYP. rewrite Eq. unfold lift. unfold mbind at 1.
      assert (Es : select null same admit_row q s1 = (Ok rows, s1)).
      { unfold select, mbind, send. rewrite Ex. now destruct s1. }
      rewrite (mbind_ok _ _ _ _ _ Es).
      destruct (mapMs_ok (row_to_triple null same admit_row as_set (PType u p))
        (fun r y => exists s' j n nm, r = [s'; j; nm] /\ ns_is (q_db s1) j n /\ y = TType s' (n, nm)) s1 rows) as (l & El & Hl).
      { intros r Hr0. apply Hrows in Hr0 as (s' & j & nm & -> & Hst & _).
        assert (Hn : exists n, ns_is (q_db s1) j n).
        { destruct Hst as (c & e & r & _ & He & _ & _ & _ & _ & -> & _). now apply entity_ns. }
        destruct Hn as (n & Hn). exists (TType s' (n, nm)). split; [|exists s', j, n, nm; auto].
        cbn [row_to_triple]. rewrite (mbind_ok _ _ _ _ _ (get_ns_ok s1 j n G1 Hn)). reflexivity. }
      exists l, s1. split; [exact El|]. split; [exact G1|]. split; [|apply X].
      assert (Hf : forall s' j n' nm', ns_is (q_db s1) j n' -> stored_type same (q_db s1) s' j nm' ->
        (fits_one same u s' /\ fits_two same pe j nm' <-> open u s' /\ open p (n', nm'))).
      { intros s' j n' nm' Hj Hs. destruct (type_proper _ _ _ _ Gd Hs) as (Q1 & Q2).
        rewrite !fits_one_open, (fits_two_open (q_db s1) p pe j n' nm') by auto. reflexivity. }
      intros y. rewrite <- (e_holds _ _ X). split.
      + intros Hy. destruct (Forall2_in_r _ _ _ _ Hl Hy) as (r & Hr0 & s' & j & n & nm & -> & Hn & ->).
        apply Hrows in Hr0 as (s'' & j' & nm' & [= <- <- <-] & Hst & F). cbn [PropSqlSession.holds fits].
        split; [eauto|]. now apply (Hf s' j).
      + intros [Hh F]. destruct y as [s' (n, nm) o'|s' (n, nm)|]; cbn [fits] in F; [destruct F| |destruct F].
        destruct Hh as (j & Hn & Hst).
        assert (Hin : In [s'; j; nm] rows). { apply Hrows. exists s', j, nm. split; [reflexivity|]. split; [exact Hst|]. now apply (Hf s' j n). }
        destruct (Forall2_in_l _ _ _ _ Hl Hin) as (y & Hy & s'' & j' & n' & nm' & [= <- <- <-] & Hn' & ->).
        now rewrite (ns_idx_fun _ _ _ _ Gd Hn Hn').
    - destruct Hp as (Hin & Pu & Pp & Pw).
      destruct (proj1 Htabs _ _ Hin) as (Hpre & Hcl & ocols & edt & Eoc).
      assert (Pl : forall ws', ws = Some ws' -> List.length ws' = List.length ocols).
      { intros ws' ->. destruct Pw as [_ Pw]. eauto. }
      destruct (opt_split_ok s p G Pp) as (pe & s1 & E1 & G1 & X & Sp). pose proof (proj1 G1) as Gd.
      destruct (g_data _ _ _ Gd _ _ _ _ Hin Eoc) as (D1 & _).
      destruct (C69_select_data null same admit_row as_set Has (q_db s1) u pe ws t dt ocols edt (g_shape _ _ _ Gd) Hpre Hcl Eoc D1 Pl)
        as (q & rows & Eq & Ex & Hrows).
      unfold query. rewrite (mbind_ok _ _ _ _ _ E1). rewrite Eq. unfold lift. unfold mbind at 1.
      assert (Es : select null same admit_row q s1 = (Ok rows, s1)).
      { unfold select, mbind, send. rewrite Ex. now destruct s1. }
      rewrite (mbind_ok _ _ _ _ _ Es).
      destruct (mapMs_ok (row_to_triple null same admit_row as_set (PData t dt u p ws))
        (fun r y => exists s' j n nm os, r = s' :: j :: nm :: os /\ ns_is (q_db s1) j n /\ y = TData t dt s' (n, nm) os) s1 rows) as (l & El & Hl).
      { intros r Hr0. apply Hrows in Hr0 as (s' & j & nm & os & -> & Hst & _).
        assert (Hn : exists n, ns_is (q_db s1) j n).
        { destruct Hst as (c & e & r & _ & He & _ & _ & _ & _ & -> & _). now apply entity_ns. }
        destruct Hn as (n & Hn). exists (TData t dt s' (n, nm) os). split; [|exists s', j, n, nm, os; auto].
        cbn [row_to_triple]. rewrite (mbind_ok _ _ _ _ _ (get_ns_ok s1 j n G1 Hn)). now destruct os. }
      exists l, s1. split; [exact El|]. split; [exact G1|]. split; [|apply X].
      assert (Hf : forall s' j n' nm' os, ns_is (q_db s1) j n' -> stored_data same (q_db s1) t ocols s' j nm' os ->
        (fits_one same u s' /\ fits_two same pe j nm' /\ fits_all same ws os <-> open u s' /\ open p (n', nm') /\ open ws os)).
      { intros s' j n' nm' os Hj Hs. destruct (data_proper _ _ _ _ _ _ _ _ _ Gd Hin Eoc Hs) as (Q1 & Q2 & Q3).
        rewrite !fits_one_open, (fits_two_open (q_db s1) p pe j n' nm'), fits_all_open by auto. reflexivity. }
      intros y. rewrite <- (e_holds _ _ X). split.
      + intros Hy. destruct (Forall2_in_r _ _ _ _ Hl Hy) as (r & Hr0 & s' & j & n & nm & os & -> & Hn & ->).
        apply Hrows in Hr0 as (s'' & j' & nm' & os' & [= <- <- <- <-] & Hst & F). cbn [PropSqlSession.holds fits].
        split; [split; [exact Hin|]; exists j, ocols, edt; auto|]. split; [reflexivity|]. split; [reflexivity|]. now apply (Hf s' j).
      + intros [Hh F]. destruct y as [s' (n, nm) o'|s' (n, nm)|t' dt' s' (n, nm) os]; cbn [fits] in F; [destruct F|destruct F|].
        destruct F as (<- & <- & F). destruct Hh as (_ & j & oc & ed & Hn & E2 & Hst). rewrite Eoc in E2. injection E2 as <- <-.
        assert (Hir : In (s' :: j :: nm :: os) rows).
        { apply Hrows. exists s', j, nm, os. split; [reflexivity|]. split; [exact Hst|]. now apply (Hf s' j n). }
        destruct (Forall2_in_l _ _ _ _ Hl Hir) as (y & Hy & s'' & j' & n' & nm' & os' & [= <- <- <- <-] & Hn' & ->).
        now rewrite (ns_idx_fun _ _ _ _ Gd Hn Hn').
  Qed.

  (** *** All tables of a subject *)
  Definition of_subject (u : option V) (x : striple A) : Prop :=
    match x with TRel s _ _ | TType s _ | TData _ _ s _ _ => open u s end.
  Lemma subject_fits u y db : holds db y -> ((exists p, In p (subject_patterns tabs u) /\ fits p y) <-> of_subject u y).
  Proof.
    intros Hh. unfold subject_patterns. destruct y as [s (n, nm) o|s (n, nm)|t dt s (n, nm) ws]; cbn [of_subject]; split.
    - intros (p & [<-|[<-|Hin]] & F); [apply F | destruct F |]. apply in_map_iff in Hin as ((t, dt) & <- & _). destruct F.
    - intros H. exists (PRel u None None). split; [now left|]. cbn. unfold open. auto.
    - intros (p & [<-|[<-|Hin]] & F); [destruct F | apply F |]. apply in_map_iff in Hin as ((t, dt) & <- & _). destruct F.
    - intros H. exists (PType u None). split; [right; now left|]. cbn. unfold open. auto.
    - intros (p & [<-|[<-|Hin]] & F); [destruct F | destruct F |]. apply in_map_iff in Hin as ((t', dt') & <- & _). apply F.
    - intros H. destruct Hh as (Hin & _). exists (PData t dt u None None). split; [|cbn; unfold open; auto 10].
      right. right. apply in_map_iff. exists (t, dt). auto.
  Qed.
  Lemma subject_proper u : opt proper u -> forall p, In p (subject_patterns tabs u) -> proper_pattern same tabs p.
  Proof.
    intros Hu p [<-|[<-|Hin]]; [cbn; auto..|]. apply in_map_iff in Hin as ((t, dt) & <- & H). cbn. auto.
  Qed.
  Lemma removes_ok l : forall s, good s -> (forall p, In p l -> proper_pattern same tabs p) ->
    exists v s', mapMs (remove null same admit_row as_set) l s = (Ok v, s') /\ good s'
      /\ forall y, holds (q_db s') y <-> holds (q_db s) y /\ ~ exists p, In p l /\ fits p y.
  Proof.
    induction l as [|p l IH]; intros s G Hl; cbn [mapMs].
    - exists [], s. split; [reflexivity|]. split; [exact G|]. intros y. split; [intros H; split; [exact H | intros (p & [] & _)] | tauto].
    - destruct (C71_remove s p G) as (s1 & E1 & G1 & H1); [apply Hl; now left|].
      destruct (IH s1 G1) as (v & s2 & E2 & G2 & H2); [intros q Hq; apply Hl; now right|].
      exists (tt :: v), s2. rewrite (mbind_ok _ _ _ _ _ E1), (mbind_ok _ _ _ _ _ E2). split; [reflexivity|]. split; [exact G2|].
      intros y. rewrite H2, H1. split.
      + intros [[Hh Hn] Hn']. split; [exact Hh|]. intros (q & [<-|Hq] & F); [now apply Hn|]. apply Hn'. eauto.
      + intros [Hh Hn]. split; [split; [exact Hh|]; intros F; apply Hn; exists p; split; [now left | exact F]|].
        intros (q & Hq & F). apply Hn. exists q. split; [now right | exact F].
  Qed.
  Lemma queries_ok l : forall s, good s -> (forall p, In p l -> proper_pattern same tabs p) ->
    exists v s', mapMs (query null same admit_row as_set) l s = (Ok v, s') /\ good s'
      /\ (forall y, In y (concat v) <-> holds (q_db s) y /\ exists p, In p l /\ fits p y)
      /\ forall y, holds (q_db s') y <-> holds (q_db s) y.
  Proof.
    induction l as [|p l IH]; intros s G Hl; cbn [mapMs].
    - exists [], s. split; [reflexivity|]. split; [exact G|]. split; [|reflexivity]. intros y. split; [intros [] | intros (_ & p & [] & _)].
    - destruct (C71_query s p G) as (a & s1 & E1 & G1 & H1 & K1); [apply Hl; now left|].
      destruct (IH s1 G1) as (v & s2 & E2 & G2 & H2 & K2); [intros q Hq; apply Hl; now right|].
      exists (a :: v), s2. rewrite (mbind_ok _ _ _ _ _ E1), (mbind_ok _ _ _ _ _ E2). split; [reflexivity|]. split; [exact G2|]. split.
      + intros y. cbn [concat]. rewrite in_app_iff, H1, H2, K1. split.
        * intros [[Hh F]|(Hh & q & Hq & F)]; (split; [exact Hh|]); [exists p | exists q]; split; auto; [now left | now right].
        * intros (Hh & q & [<-|Hq] & F); [left; auto|]. right. split; [exact Hh|]. exists q. auto.
      + intros y. now rewrite K2, K1.
  Qed.
  (** Reading or removing by the subject alone works on all tables, in any order. *)
  Theorem C71_subject : forall order, (forall l (p : spattern A), In p (order l) <-> In p l) ->
    forall s u, good s -> opt proper u ->
    (exists l s', query_subject null same admit_row as_set tabs order u s = (Ok l, s') /\ good s'
       /\ (forall y, In y l <-> holds (q_db s) y /\ of_subject u y)
       /\ (forall y, holds (q_db s') y <-> holds (q_db s) y))
    /\ (exists s', remove_subject null same admit_row as_set tabs order u s = (Ok tt, s') /\ good s'
       /\ forall y, holds (q_db s') y <-> holds (q_db s) y /\ ~ of_subject u y).
  Proof.
    intros order Ho s u G Hu.
    assert (Hpr : forall p, In p (order (subject_patterns tabs u)) -> proper_pattern same tabs p).
    { intros p Hp. apply (proj1 (Ho _ _)) in Hp. exact (subject_proper u Hu p Hp). }
    assert (Hf : forall y, holds (q_db s) y -> ((exists p, In p (order (subject_patterns tabs u)) /\ fits p y) <-> of_subject u y)).
    { intros y Hh. rewrite <- (subject_fits u y _ Hh). split; intros (p & Hp & F); exists p; (split; [|exact F]); [exact (proj1 (Ho _ _) Hp) | exact (proj2 (Ho _ _) Hp)]. }
    split.
    - destruct (queries_ok _ s G Hpr) as (v & s' & E & G' & H & K). exists (concat v), s'. unfold query_subject.
      rewrite (mbind_ok _ _ _ _ _ E). split; [reflexivity|]. split; [exact G'|]. split; [|exact K].
      intros y. rewrite H. split; intros [Hh F]; (split; [exact Hh|]); now apply (Hf y Hh).
    - destruct (removes_ok _ s G Hpr) as (v & s' & E & G' & H). exists s'. unfold remove_subject.
      rewrite (mbind_ok _ _ _ _ _ E). split; [reflexivity|]. split; [exact G'|].
      intros y. rewrite H. split; intros [Hh F]; (split; [exact Hh|]); intros Q; apply F; now apply (Hf y Hh).
  Qed.

  (** *** Histories *)
  Inductive op := Add (x : striple A) | Remove (p : spattern A) | Query (p : spattern A).
  Definition proper_op (o : op) : Prop :=
    match o with Add x => proper_triple same tabs x | Remove p | Query p => proper_pattern same tabs p end.
  Definition do (o : op) : M (list (striple A)) :=
    match o with
    | Add x => mbind (add null same admit_row as_set x) (fun _ => ret [])
    | Remove p => mbind (remove null same admit_row as_set p) (fun _ => ret [])
    | Query p => query null same admit_row as_set p
    end.
  (** The same operations on a set of triples. *)
  Inductive set_run : list op -> (striple A -> Prop) -> list (list (striple A)) -> (striple A -> Prop) -> Prop :=
  | set_end S S' : (forall y, S' y <-> S y) -> set_run [] S [] S'
  | set_add x ops S S1 outs S' : (forall y, S1 y <-> S y \/ y = x) -> set_run ops S1 outs S' -> set_run (Add x :: ops) S ([] :: outs) S'
  | set_remove p ops S S1 outs S' : (forall y, S1 y <-> S y /\ ~ fits p y) -> set_run ops S1 outs S' -> set_run (Remove p :: ops) S ([] :: outs) S'
  | set_query p ops S S1 l outs S' : (forall y, S1 y <-> S y) -> (forall y, In y l <-> S y /\ fits p y) -> set_run ops S1 outs S' ->
      set_run (Query p :: ops) S (l :: outs) S'.
  Theorem C71_history : forall ops s, good s -> Forall proper_op ops ->
    exists outs s', mapMs do ops s = (Ok outs, s') /\ good s' /\ set_run ops (holds (q_db s)) outs (holds (q_db s')).
  Proof.
    induction ops as [|o ops IH]; intros s G Hp; cbn [mapMs].
    - exists [], s. split; [reflexivity|]. split; [exact G | now constructor].
    - inversion_clear Hp as [|? ? P1 P2]. destruct o as [x|p|p]; cbn [proper_op do] in *.
      + destruct (C71_add s x G P1) as (s1 & E1 & G1 & H1). destruct (IH s1 G1 P2) as (outs & s2 & E2 & G2 & H2).
        exists ([] :: outs), s2. unfold mbind at 1. rewrite (mbind_ok _ _ _ _ _ E1). unfold ret at 1. rewrite (mbind_ok _ _ _ _ _ E2).
        split; [reflexivity|]. split; [exact G2|]. econstructor; eauto.
      + destruct (C71_remove s p G P1) as (s1 & E1 & G1 & H1). destruct (IH s1 G1 P2) as (outs & s2 & E2 & G2 & H2).
        exists ([] :: outs), s2. unfold mbind at 1. rewrite (mbind_ok _ _ _ _ _ E1). unfold ret at 1. rewrite (mbind_ok _ _ _ _ _ E2).
        split; [reflexivity|]. split; [exact G2|]. econstructor; eauto.
      + destruct (C71_query s p G P1) as (l & s1 & E1 & G1 & H1 & K1). destruct (IH s1 G1 P2) as (outs & s2 & E2 & G2 & H2).
        exists (l :: outs), s2. rewrite (mbind_ok _ _ _ _ _ E1), (mbind_ok _ _ _ _ _ E2).
        split; [reflexivity|]. split; [exact G2|]. econstructor; eauto.
  Qed.

  (** *** A new database *)
  Theorem C71_initialize : forall dts texts,
    (forall t dt, In (t, dt) tabs <-> In dt dts /\ get_data_table_name dt = Ok t) ->
    initialize_texts dts = Ok texts ->
    (forall dt ocols edt, In dt dts -> get_expanded_cols (lit "o") (Some dt) = Ok (ocols, edt) -> ocols <> []) ->
    exists db s', execute_all null same admit_row texts (fun _ => None) = Some db
      /\ load_namespaces null same admit_row as_set (SqlS db []) = (Ok tt, s') /\ good s'
      /\ q_db s' = db /\ forall x, ~ holds db x.
  Proof.
    intros dts texts Ht Et Hoc.
    destruct (C69_initialize null same admit_row dts texts (fun _ => None) Et) as (db & Ex & Hsh & Hd & _ & Hempty & _);
      try (intros; left; reflexivity); try (left; reflexivity); auto.
    { intros dt t Hin E. assert (H : In (t, dt) tabs) by (apply Ht; auto). apply (proj1 Htabs _ _ H). }
    { intros dt dt' t H1 H2 E1 E2. apply (proj2 Htabs t); apply Ht; auto. }
    assert (Hno : forall t, rows_of db t = []) by (intros t; now apply Hempty).
    assert (Hrf : forall t ks, refers same db t ks) by (intros t ks r k t' i Hr0; rewrite Hno in Hr0; destruct Hr0).
    assert (G : good_db db).
    { split; auto.
      - split; intros ? ? Hq; rewrite Hno in Hq; destruct Hq.
      - intros t dt ocols edt Hin Eoc. apply Ht in Hin as [Hin En]. destruct (Hd dt Hin) as (t' & oc & ed & En' & Eoc' & Hh).
        rewrite En in En'. injection En' as <-. rewrite Eoc in Eoc'. injection Eoc' as <- <-.
        split; [exact Hh|]. split; [auto|]. intros r c Hq. rewrite Hno in Hq. destruct Hq.
      - intros r Hq. rewrite Hno in Hq. destruct Hq.
      - intros r r' Hq. rewrite Hno in Hq. destruct Hq. }
    destruct (load_ok (SqlS db []) G) as (l & El & Hl). exists db, (SqlS db l). split; [exact Ex|]. split; [exact El|].
    split; [split; [exact G | exact Hl]|]. split; [reflexivity|].
    intros [u (n, nm) o|u (n, nm)|t dt u (n, nm) ws] H; cbn [PropSqlSession.holds] in H.
    - destruct H as (i & _ & c & e & c' & r & Hq & _). rewrite Hno in Hq. destruct Hq.
    - destruct H as (i & _ & c & e & r & Hq & _). rewrite Hno in Hq. destruct Hq.
    - destruct H as (_ & i & oc & ed & _ & _ & c & e & r & Hq & _). rewrite Hno in Hq. destruct Hq.
  Qed.

  (** *** Opening a database again, clearing it *)
  Lemma send_all texts : forall db db' (ca : list (V * V)), execute_all null same admit_row texts db = Some db' ->
    exists v, mapMs (fun t => send null same admit_row (t, [])) texts (SqlS db ca) = (Ok v, SqlS db' ca).
  Proof.
    induction texts as [|t texts IH]; intros db db' ca E; cbn [execute_all mapMs] in *.
    - injection E as <-. exists []. reflexivity.
    - destruct (execute null same admit_row t (fun _ => None) db) as [[db1 rows|]|] eqn:E1; [|discriminate|discriminate].
      destruct (IH db1 db' ca E) as (v & Ev). exists (Some rows :: v).
      assert (Es : send null same admit_row (t, []) (SqlS db ca) = (Ok (Some rows), SqlS db1 ca)).
      { unfold send. cbn [fst snd q_db q_ns]. change (plookup (A:=A) []) with (fun _ : str => @None V). now rewrite E1. }
      rewrite (mbind_ok _ _ _ _ _ Es), (mbind_ok _ _ _ _ _ Ev). reflexivity.
  Qed.
  Lemma initialize_good tabs' dts texts db ca : tables_ok tabs' ->
    (forall t dt, In (t, dt) tabs' <-> In dt dts /\ get_data_table_name dt = Ok t) ->
    initialize_texts dts = Ok texts ->
    (forall dt ocols edt, In dt dts -> get_expanded_cols (lit "o") (Some dt) = Ok (ocols, edt) -> ocols <> []) ->
    good_db db -> incl tabs tabs' -> (forall t dt, In (t, dt) tabs' -> In (t, dt) tabs \/ db t = None) ->
    exists s', initialize null same admit_row as_set texts (SqlS db ca) = (Ok tt, s')
      /\ PropSqlSession.good same tabs' s'
      /\ (forall t x, db t = Some x -> q_db s' t = Some x)
      /\ (forall t, rows_of (q_db s') t = rows_of db t)
      /\ forall x, PropSqlSession.holds same tabs' (q_db s') x <-> holds db x.
  Proof.
    intros Ht' Ht Et Hoc G Hincl Hnew. pose proof (g_shape _ _ _ G) as (S1 & S2 & S3 & S4 & S5).
    destruct (C69_initialize null same admit_row dts texts db Et) as (db' & Ex & Hsh & Hd & Hkeep & Hempty & _);
      try (right; assumption); auto.
    { intros dt t Hin E. assert (H : In (t, dt) tabs') by (apply Ht; auto). apply (proj1 Ht' _ _ H). }
    { intros dt dt' t H1 H2 E1 E2. apply (proj2 Ht' t); apply Ht; auto. }
    { intros dt t ocols edt Hin En Eoc. assert (H : In (t, dt) tabs') by (apply Ht; auto).
      destruct (Hnew _ _ H) as [Hold|Hn]; [right | left; exact Hn]. exact (proj1 (g_data _ _ _ G _ _ _ _ Hold Eoc)). }
    assert (Hrows : forall t, rows_of db' t = rows_of db t).
    { intros t. destruct (db t) as [x|] eqn:E; [unfold rows_of; now rewrite E, (Hkeep _ _ E)|].
      rewrite (Hempty _ E). unfold rows_of. now rewrite E. }
    assert (Hrf : forall t ks, refers same db t ks -> refers same db' t ks).
    { intros t ks H r k t' i Hr0 Hk. rewrite Hrows in Hr0 |- *. eauto. }
    assert (G' : PropSqlSession.good_db same tabs' db').
    { split; auto.
      - unfold unique_keys. rewrite !Hrows. apply (g_keys _ _ _ G).
      - apply Hrf, (g_rel _ _ _ G).
      - apply Hrf, (g_type _ _ _ G).
      - intros t dt ocols edt Hin Eoc. pose proof Hin as Hin'. apply Ht in Hin' as [Hdt En].
        destruct (Hd dt Hdt) as (t' & oc & ed & En' & Eoc' & Hh).
        rewrite En in En'. injection En' as <-. rewrite Eoc in Eoc'. injection Eoc' as <- <-. split; [exact Hh|].
        destruct (Hnew _ _ Hin) as [Hold|Hn].
        + destruct (g_data _ _ _ G _ _ _ _ Hold Eoc) as (_ & D2 & D3). split; [now apply Hrf | now rewrite Hrows].
        + split; [intros r k t' i Hr0 | intros r c Hr0]; rewrite (Hempty _ Hn) in Hr0; destruct Hr0.
      - rewrite Hrows. apply (g_ns _ _ _ G).
      - rewrite Hrows. apply (g_ns_keys _ _ _ G).
      - apply Hrf, (g_ent _ _ _ G). }
    destruct (send_all texts db db' ca Ex) as (v & Ev).
    assert (El : exists l, load_namespaces null same admit_row as_set (SqlS db' ca) = (Ok tt, SqlS db' l)
      /\ forall i n, In (i, n) l <-> ns_is db' i n).
    { destruct (C69_namespaces null same admit_row as_set db' Hsh) as (rows & E & Hrw).
      unfold load_namespaces, mbind, select, send, mbind, ret. cbn [q_db q_ns]. rewrite E. eexists. split; [reflexivity|].
      intros i n. rewrite in_map_iff. split.
      - intros (r & Er & Hin). apply Hrw in Hin as (q & Hq & ->). cbn [nth] in Er. injection Er as <- <-. exists q. auto.
      - intros (q & Hq & -> & ->). exists [q (lit "ns_idx"); q (lit "namespace")]. split; [reflexivity|]. apply Hrw. eauto. }
    destruct El as (l & El & Hl). exists (SqlS db' l). unfold initialize. rewrite (mbind_ok _ _ _ _ _ Ev).
    split; [exact El|]. cbn [q_db]. split; [split; [exact G' | exact Hl]|]. split; [exact Hkeep|]. split; [exact Hrows|].
    intros [u (n, nm) o|u (n, nm)|t dt u (n, nm) ws]; cbn [PropSqlSession.holds]; unfold ns_is, stored_rel, stored_type, stored_data;
      rewrite !Hrows; [reflexivity..|].
    split; intros (Hin & H); (split; [|exact H]).
    - destruct (Hnew _ _ Hin) as [Hold|Hn]; [exact Hold|]. exfalso.
      destruct H as (i & oc & ed & _ & _ & c & e & r & _ & _ & Hr0 & _). unfold rows_of in Hr0. rewrite Hn in Hr0. destruct Hr0.
    - now apply Hincl.
  Qed.

  (** Opening an existing database, possibly with more datatypes than before: the same
      triples. *)
  Theorem C71_reopen : forall tabs' dts texts s, tables_ok tabs' ->
    (forall t dt, In (t, dt) tabs' <-> In dt dts /\ get_data_table_name dt = Ok t) ->
    initialize_texts dts = Ok texts ->
    (forall dt ocols edt, In dt dts -> get_expanded_cols (lit "o") (Some dt) = Ok (ocols, edt) -> ocols <> []) ->
    good s -> incl tabs tabs' -> (forall t dt, In (t, dt) tabs' -> In (t, dt) tabs \/ q_db s t = None) ->
    exists s', initialize null same admit_row as_set texts (SqlS (q_db s) []) = (Ok tt, s')
      /\ PropSqlSession.good same tabs' s'
      /\ forall x, PropSqlSession.holds same tabs' (q_db s') x <-> holds (q_db s) x.
  Proof.
    intros tabs' dts texts s Ht' Ht Et Hoc G Hincl Hnew.
    destruct (initialize_good tabs' dts texts (q_db s) [] Ht' Ht Et Hoc (proj1 G) Hincl Hnew) as (s' & E & G' & _ & _ & H). eauto.
  Qed.

  Lemma delete_all l : forall s, NoDup l -> (forall t, In t l -> clean_name t /\ q_db s t <> None) ->
    exists v s', mapMs (fun t => send null same admit_row (db_delete t None)) l s = (Ok v, s')
      /\ (forall t, In t l -> exists x, q_db s t = Some x /\ q_db s' t = Some (Table (tcols x) []))
      /\ (forall t, ~ In t l -> q_db s' t = q_db s t).
  Proof.
    induction l as [|t l IH]; intros s Hnd Hl; cbn [mapMs].
    - exists [], s. split; [reflexivity|]. split; [intros t [] | auto].
    - inversion_clear Hnd as [|? ? Hni Hnd']. destruct (Hl t) as [Hc Hx]; [now left|]. destruct (q_db s t) as [x|] eqn:Ex; [|congruence].
      pose proof (C67_delete null same admit_row t None (q_db s) x Hc (Forall_nil _) Ex) as Ed.
      assert (Es : send null same admit_row (db_delete t None) s = (Ok (Some []), SqlS (dbset (q_db s) t (Some (Table (tcols x) []))) (q_ns s))).
      { unfold send. rewrite Ed; [|intros a k []|exact I]. cbn [meets_opt negb].
        replace (filter (fun _ : row V => false) (trows x)) with (@nil (row V)); [reflexivity|]. clear. induction (trows x) as [|r rs IHr]; [reflexivity | exact IHr]. }
      set (s1 := SqlS _ _) in Es.
      destruct (IH s1 Hnd') as (v & s' & Ev & H1 & H2).
      { intros t' Ht'. destruct (Hl t') as [Hc' Hx']; [now right|]. split; [exact Hc'|]. unfold s1, dbset. cbn [q_db].
        destruct (str_eqb t' t); [discriminate | exact Hx']. }
      exists (Some [] :: v), s'. rewrite (mbind_ok _ _ _ _ _ Es), (mbind_ok _ _ _ _ _ Ev). split; [reflexivity|]. split.
      + intros t' [<-|Ht'].
        * exists x. split; [exact Ex|]. rewrite H2 by exact Hni. unfold s1, dbset. cbn [q_db]. now rewrite str_eqb_refl.
        * destruct (H1 t' Ht') as (y & Hy & Hy'). exists y. split; [|exact Hy'].
          assert (Hne : t' <> t) by congruence. unfold s1, dbset in Hy. cbn [q_db] in Hy. now rewrite (proj2 (str_eqb_neq t' t) Hne) in Hy.
      + intros t' Hn. rewrite H2 by (intros Hq; apply Hn; now right). unfold s1, dbset. cbn [q_db].
        rewrite (proj2 (str_eqb_neq t' t)); [reflexivity|]. intros ->. apply Hn. now left.
  Qed.
  (** Clearing the database leaves no triple, and a session that can go on. *)
  Theorem C71_clear : forall names dts texts s,
    (forall t dt, In (t, dt) tabs <-> In dt dts /\ get_data_table_name dt = Ok t) ->
    initialize_texts dts = Ok texts ->
    (forall dt ocols edt, In dt dts -> get_expanded_cols (lit "o") (Some dt) = Ok (ocols, edt) -> ocols <> []) ->
    NoDup names -> (forall t, In t names -> clean_name t /\ startswith DATA_TABLE_PREFIX t = true /\ q_db s t <> None) ->
    (forall t dt, In (t, dt) tabs -> In t names) ->
    good s -> exists s', clear_database null same admit_row as_set names texts s = (Ok tt, s') /\ good s'
      /\ q_ns s' = [] /\ forall x, ~ holds (q_db s') x.
  Proof.
    intros names dts texts s Ht Et Hoc Hnd Hnames Hall G. pose proof (proj1 G) as Gd.
    pose proof (g_shape _ _ _ Gd) as ((x1 & X1 & C1) & (x2 & X2 & C2) & (x3 & X3 & C3) & (x4 & X4 & C4) & (x5 & X5 & C5)).
    set (L := [TYPES_TABLE; RELATIONSHIP_TABLE; CUDS_TABLE; ENTITIES_TABLE; NAMESPACES_TABLE]).
    assert (HL : forall t, In t names -> ~ In t L).
    { intros t Hin Hq. destruct (Hnames t Hin) as (_ & Hp & _). apply startswith_iff in Hp as (u & ->).
      destruct Hq as [Q|[Q|[Q|[Q|[Q|[]]]]]]; discriminate Q. }
    assert (HN : NoDup (names ++ L)).
    { clear -Hnd HL. induction names as [|t names IH]; cbn [app].
      - unfold L. repeat constructor; cbn [In]; intros H;
          repeat match goal with H : _ \/ _ |- _ => destruct H as [H|H]; [discriminate H|] end; destruct H.
      - inversion_clear Hnd. constructor; [|apply IH; auto; intros t' Ht'; apply HL; now right].
        intros Hq. apply in_app_or in Hq as [Hq|Hq]; [auto|]. apply (HL t); [now left | exact Hq]. }
    destruct (delete_all (names ++ L) s HN) as (v & s1 & Ev & H1 & H2).
    { intros t Hin. apply in_app_or in Hin as [Hin|Hin]; [destruct (Hnames t Hin) as (? & _ & ?); auto|].
      destruct Hin as [<-|[<-|[<-|[<-|[<-|[]]]]]]; (split; [cln|]).
      - change TYPES_TABLE with TYP. congruence.
      - change RELATIONSHIP_TABLE with REL. congruence.
      - change CUDS_TABLE with CUDS. congruence.
      - change ENTITIES_TABLE with ENT. congruence.
      - change NAMESPACES_TABLE with NS. congruence. }
    assert (Hempty : forall t, In t (names ++ L) -> rows_of (q_db s1) t = []).
    { intros t Hin. destruct (H1 t Hin) as (x & _ & Hx). unfold rows_of. now rewrite Hx. }
    assert (Hcols : forall t cols, In t (names ++ L) -> has_table (q_db s) t cols -> has_table (q_db s1) t cols).
    { intros t cols Hin (x & Hx & Hc). destruct (H1 t Hin) as (y & Hy & Hy'). rewrite Hx in Hy. injection Hy as <-.
      exists (Table (tcols x) []). split; [exact Hy' | exact Hc]. }
    assert (InT : In TYP (names ++ L)) by (apply in_or_app; right; now left).
    assert (InR : In REL (names ++ L)) by (apply in_or_app; right; right; now left).
    assert (InC : In CUDS (names ++ L)) by (apply in_or_app; right; right; right; now left).
    assert (InE : In ENT (names ++ L)) by (apply in_or_app; right; right; right; right; now left).
    assert (InN : In NS (names ++ L)) by (apply in_or_app; right; right; right; right; right; now left).
    assert (InD : forall t dt, In (t, dt) tabs -> In t (names ++ L)) by (intros t dt Hin; apply in_or_app; left; eauto).
    assert (Hrf : forall t ks, In t (names ++ L) -> refers same (q_db s1) t ks).
    { intros t ks Hin r k t' i Hr0. rewrite (Hempty t Hin) in Hr0. destruct Hr0. }
    assert (G1 : good_db (q_db s1)).
    { split; auto.
      - split; [|split; [|split; [|split]]]; apply Hcols; auto; eexists; eauto.
      - split; [intros ? ? Hq; rewrite (Hempty _ InC) in Hq | intros ? ? Hq; rewrite (Hempty _ InE) in Hq]; destruct Hq.
      - intros t dt ocols edt Hin Eoc. split; [apply Hcols; [eauto|]; apply (g_data _ _ _ Gd t dt ocols edt Hin Eoc)|].
        split; [apply Hrf; eauto|]. intros r c Hq. rewrite (Hempty t) in Hq by eauto. destruct Hq.
      - intros r Hq. rewrite (Hempty _ InN) in Hq. destruct Hq.
      - intros r r' Hq. rewrite (Hempty _ InN) in Hq. destruct Hq. }
    destruct s1 as [db1 ca1]. cbn [q_db] in *.
    destruct (initialize_good tabs dts texts db1 ca1 Htabs Ht Et Hoc G1) as (s' & E & G' & _ & Hrows & Hh); [intros t Hin; exact Hin | auto|].
    exists s'. unfold clear_database. fold L. rewrite (mbind_ok _ _ _ _ _ Ev). split; [exact E|]. split; [exact G'|]. split.
    - destruct (q_ns s') as [|(i, n) l] eqn:En; [reflexivity|]. exfalso.
      assert (Hin : ns_is (q_db s') i n) by (apply (proj2 G'); rewrite En; now left).
      destruct Hin as (r & Hr0 & _). rewrite Hrows, (Hempty _ InN) in Hr0. destruct Hr0.
    - intros x Hx. apply Hh in Hx. destruct x as [u (n, nm) o|u (n, nm)|t dt u (n, nm) ws]; cbn [PropSqlSession.holds] in Hx.
      + destruct Hx as (i & _ & c & e & c' & r & Hq & _). rewrite (Hempty _ InC) in Hq. destruct Hq.
      + destruct Hx as (i & _ & c & e & r & Hq & _). rewrite (Hempty _ InC) in Hq. destruct Hq.
      + destruct Hx as (_ & i & oc & ed & _ & _ & c & e & r & Hq & _). rewrite (Hempty _ InC) in Hq. destruct Hq.
  Qed.

End Proofs.

(** ** Example: the database of C69 with unique rows in the tables of relationships and
    types, generated keys, and one data table for vectors *)
Section Example.
  Definition y_admit (t : str) (rows : list (row (nd Z))) (r : row (nd Z)) : option (row (nd Z)) :=
    let gen i := Some (fun k => if str_eqb k i then z_next i rows else r k) in
    let once ks := if existsb (fun q => forallb (fun k => z_same (q k) (r k)) ks) rows then None else Some r in
    if str_eqb t (lit "OSP_V1_CUDS") then gen (lit "cuds_idx")
    else if str_eqb t (lit "OSP_V1_ENTITIES") then gen (lit "entity_idx")
    else if str_eqb t (lit "OSP_V1_NAMESPACES") then gen (lit "ns_idx")
    else if str_eqb t (lit "OSP_V1_RELATIONS") then once [lit "s"; lit "p"; lit "o"]
    else if str_eqb t (lit "OSP_V1_TYPES") then once [lit "s"; lit "o"]
    else Some r.
  Definition y_tabs := [(z_tv, z_vec)].
  Lemma z_same_eq x y : z_same x y = true -> x = y.
  Proof. destruct x as [a|], y as [b|]; cbn; try discriminate. rewrite andb_true_iff, Z.eqb_eq. now intros [-> _]. Qed.
  Example C71_example_hypotheses : set_order z_id /\ tables_ok y_tabs /\ rules z_same y_admit y_tabs.
  Proof.
    assert (Hg : forall i rows (r : row (nd Z)), let r' := fun k => if str_eqb k i then z_next i rows else r k in
              z_same (r' i) (r' i) = true /\ forall q, In q rows -> z_same (q i) (r' i) = false).
    { intros i rows r r'. unfold r'. rewrite str_eqb_refl. destruct (z_next_pos i rows) as (n & E & Hn). split.
      - rewrite E. cbn. rewrite Z.eqb_refl. apply Z.leb_le. lia.
      - intros q Hq. destruct (z_max i rows q Hq) as [Hlt _]. rewrite E in *. cbn in Hlt. destruct (q i) as [a|]; [|reflexivity].
        cbn in *. destruct (Z.eqb_spec a n); [lia | reflexivity]. }
    split; [unfold set_order; split; [tauto | auto]|]. split.
    { split.
      - intros t dt [E|[]]. injection E as <- <-. split; [vm_compute; reflexivity|]. split; [cln|].
        exists [lit "o___0"; lit "o___1"]. eexists. vm_compute. reflexivity.
      - intros t dt dt' [E|[]] [E'|[]]. injection E as <- <-. injection E' as <-. reflexivity. }
    split.
    - exact z_same_eq.
    - intros rows r r' E c [<-|[]]. injection E as <-. reflexivity.
    - intros rows r r' E. injection E as <-. exact (Hg (lit "cuds_idx") rows r).
    - intros rows r. discriminate.
    - intros rows r r' E c [<-|[<-|[]]]; injection E as <-; reflexivity.
    - intros rows r r' E. injection E as <-. exact (Hg (lit "entity_idx") rows r).
    - intros rows r. discriminate.
    - intros rows r r' E c [<-|[]]. injection E as <-. reflexivity.
    - intros rows r r' E. injection E as <-. exact (Hg (lit "ns_idx") rows r).
    - intros rows r. discriminate.
    - intros rows r r' E c _. change (y_admit (lit "OSP_V1_RELATIONS") rows r) with
        (if existsb (fun q => forallb (fun k => z_same (q k) (r k)) [lit "s"; lit "p"; lit "o"]) rows then None else Some r) in E.
      destruct (existsb _ _); [discriminate|]. injection E as <-. reflexivity.
    - intros rows r E. change (y_admit (lit "OSP_V1_RELATIONS") rows r) with
        (if existsb (fun q => forallb (fun k => z_same (q k) (r k)) [lit "s"; lit "p"; lit "o"]) rows then None else Some r) in E.
      destruct (existsb _ _) eqn:Eb; [|discriminate]. apply existsb_exists in Eb as (q & Hq & H). exists q. split; [exact Hq|].
      rewrite forallb_forall in H. split; [|split]; apply z_same_eq; apply (H (lit _)); cbn [In]; auto.
    - intros rows r r' E c _. change (y_admit (lit "OSP_V1_TYPES") rows r) with
        (if existsb (fun q => forallb (fun k => z_same (q k) (r k)) [lit "s"; lit "o"]) rows then None else Some r) in E.
      destruct (existsb _ _); [discriminate|]. injection E as <-. reflexivity.
    - intros rows r E. change (y_admit (lit "OSP_V1_TYPES") rows r) with
        (if existsb (fun q => forallb (fun k => z_same (q k) (r k)) [lit "s"; lit "o"]) rows then None else Some r) in E.
      destruct (existsb _ _) eqn:Eb; [|discriminate]. apply existsb_exists in Eb as (q & Hq & H). exists q. split; [exact Hq|].
      rewrite forallb_forall in H. split; apply z_same_eq; apply (H (lit _)); cbn [In]; auto.
    - intros t dt ocols edt [E|[]]. injection E as <- <-. intros _. split.
      + intros rows r r' E c _. injection E as <-. reflexivity.
      + intros rows r. discriminate.
  Qed.
  Definition y0 : option (database (nd Z)) :=
    match initialize_texts [z_vec] with
    | Ok ts => execute_all z_null z_same y_admit ts (fun _ => None)
    | Err _ => None
    end.
  Definition y_do := mapMs (do z_null z_same y_admit z_id).
  Definition N (z : Z) : nd Z := Leaf z.
  Definition y_rel := TRel (N 50) (N 100, N 7) (N 60).
  Definition y_typ := TType (N 50) (N 101, N 8).
  Definition y_vec := TData z_tv z_vec (N 50) (N 100, N 9) [N 8; N 9].
  Definition y_ops : list op :=
    [Add y_rel; Add y_typ; Add y_vec; Add y_rel; Query (PRel None (Some (N 100, N 7)) None); Query (PRel None (Some (N 100, N 9)) None);
     Query (PType (Some (N 50)) None); Query (PData z_tv z_vec None None (Some [N 8; N 9]));
     Remove (PData z_tv z_vec (Some (N 50)) None None); Query (PData z_tv z_vec None None None); Query (PRel None None (Some (N 60)))].
  Example C71_example_proper : Forall (proper_op z_same y_tabs) y_ops.
  Proof.
    assert (P : forall ws, Forall (proper z_same) ws -> List.length ws = 2 -> proper_values z_same y_tabs z_tv z_vec ws).
    { intros ws Hw Hl. split; [exact Hw|]. intros ocols edt E. vm_compute in E. injection E as <- _. exact Hl. }
    unfold y_ops, y_rel, y_typ, y_vec.
    repeat (apply Forall_cons || apply Forall_nil); cbn [proper_op proper_triple proper_pattern opt fst snd]; unfold proper_entity, proper;
      cbn [fst snd]; repeat split; try (now left); try (apply P; [repeat constructor | reflexivity]).
  Qed.
  (** (values repeat as often as they were added) *)
  Example C71_example : match y0 with
    | Some db => fst (y_do y_ops (SqlS db [])) = Ok [[]; []; []; []; [y_rel]; []; [y_typ]; [y_vec]; []; []; [y_rel]]
    | None => False
    end.
  Proof. vm_compute. reflexivity. Qed.
End Example.

(** The cache has to know the namespaces in the database.  A second session that read them
    before the first one added a namespace gives it a second index, and does not find the
    triples under the first. *)
Theorem C71_second_session_refuted :
  exists s, nearly z_same y_tabs s /\ holds z_same y_tabs (q_db s) y_rel
    /\ fst (query z_null z_same y_admit z_id (PRel None (Some (N 100, N 7)) None) s) = Ok []
    /\ fst (query z_null z_same y_admit z_id (PRel None None None) s) = Ok [y_rel].
Proof.
  destruct C71_example_hypotheses as (Has & Htabs & Hr).
  destruct (C71_initialize z_null z_same y_admit z_id y_tabs Htabs [z_vec]
    (match initialize_texts [z_vec] with Ok t => t | Err _ => [] end)) as (db & s0 & Ex & El & G0 & E0 & _).
  { intros t dt. split.
    - intros [E|[]]. injection E as <- <-. split; [now left | vm_compute; reflexivity].
    - intros [[<-|[]] E]. left. f_equal. vm_compute in E. injection E as <-. reflexivity. }
  { vm_compute. reflexivity. }
  { intros dt ocols edt [<-|[]] E. vm_compute in E. injection E as <- _. discriminate. }
  destruct (C71_add z_null z_same y_admit z_id Has y_tabs Htabs Hr s0 y_rel G0) as (s1 & E1 & G1 & H1).
  { unfold y_rel. cbn [proper_triple]. unfold proper_entity, proper. cbn [fst snd]. repeat split. }
  exists (SqlS (q_db s1) []). cbn [q_db]. split; [|split].
  - split; cbn [q_db q_ns]; [apply G1 | intros i n []].
  - apply H1. now right.
  - assert (Hdb : match execute_all z_null z_same y_admit (match initialize_texts [z_vec] with Ok t => t | Err _ => [] end) (fun _ => None) with
      | Some d => let '(_, s2) := load_namespaces z_null z_same y_admit z_id (SqlS d []) in
                  let '(_, s3) := add z_null z_same y_admit z_id y_rel s2 in
                  fst (query z_null z_same y_admit z_id (PRel None (Some (N 100, N 7)) None) (SqlS (q_db s3) [])) = Ok []
                  /\ fst (query z_null z_same y_admit z_id (PRel None None None) (SqlS (q_db s3) [])) = Ok [y_rel]
      | None => False
      end) by (vm_compute; auto).
    rewrite Ex in Hdb. rewrite El in Hdb. rewrite E1 in Hdb. exact Hdb.
Qed.

Print Assumptions C71_second_session_refuted.
Print Assumptions C71_add.
Print Assumptions C71_remove.
Print Assumptions C71_query.
Print Assumptions C71_subject.
Print Assumptions C71_history.
Print Assumptions C71_initialize.
Print Assumptions C71_reopen.
Print Assumptions C71_clear.
