(** The SQLite session as a sender of statements:
    osp/core/session/db/sql_wrapper_session.py, methods [_add], [_get_values],
    [_get_cuds_idx], [_get_entity_idx], [_get_ns_idx], [_get_ns], [_remove], [_triples],
    [_rows_to_triples], and the exceptions of wrappers/sqlite/sqlite_session.py.
    Every access to the database is the execution of a statement text (SqlText.v, SqlTriple.v)
    by the reader of SqlRead.v; the state is the database inside the running transaction and
    the cached namespace indexes.
    Simplifications: a component of a triple is the database value it is written as (a uid; an
    entity is the pair of the namespace IRI and the rest of its IRI; a literal is the list of
    its columns: C33, C68); the table of a triple is known (C32 [determine_table]). *)
From Coq Require Import String List NArith ZArith Lia Bool.
From Verif Require Import Prelude Utf8 Text Datatype SqlUtil SqlRead SqlText SqlTriple.
Import ListNotations.
Local Open Scope list_scope.

(** sqlite3.OperationalError: the database rejects the statement. *)
Definition OperationalError : exn := OtherError 1.

Section Session.
  Context {A : Type} (null : nd A) (same : nd A -> nd A -> bool)
    (admit_row : str -> list (row (nd A)) -> row (nd A) -> option (row (nd A)))
    (as_set : list (cond A) -> list (cond A)).
  Notation V := (nd A).

  (** The database and [_idx_to_ns] (index, namespace IRI) in its order. *)
  Record sqls := SqlS { q_db : database V; q_ns : list (V * V) }.
  Definition M (B : Type) := sqls -> res B * sqls.
  Definition ret {B} (b : B) : M B := fun s => (Ok b, s).
  Definition lift {B} (b : res B) : M B := fun s => (b, s).
  Definition mbind {B C} (m : M B) (f : B -> M C) : M C := fun s =>
    match m s with (Ok b, s') => f b s' | (Err e, s') => (Err e, s') end.
  Fixpoint mapMs {B C} (f : B -> M C) (l : list B) : M (list C) :=
    match l with
    | [] => ret []
    | x :: l' => mbind (f x) (fun y => mbind (mapMs f l') (fun ys => ret (y :: ys)))
    end.
  Definition optM {B C} (f : B -> M C) (x : option B) : M (option C) :=
    match x with None => ret None | Some b => mbind (f b) (fun c => ret (Some c)) end.

  (** sqlite_session.py:78-90 [_db_select], 124-138 [_db_insert], 154-160 [_db_delete]: one statement.
      [None]: a uniqueness constraint was violated. *)
  Definition send (x : str * params A) : M (option (list (list V))) := fun s =>
    match execute null same admit_row (fst x) (plookup (snd x)) (q_db s) with
    | Some (Done db rows) => (Ok (Some rows), SqlS db (q_ns s))
    | Some UniqueError => (Ok None, s)
    | None => (Err OperationalError, s)
    end.
  Definition select (q : query A) : M (list (list V)) :=
    mbind (send (db_select q)) (fun r => ret (match r with Some rows => rows | None => [] end)).
  (** sqlite_session.py:124-138 [_db_insert]: a violated uniqueness constraint is ignored. *)
  Definition insert (t : str) (cols : list str) (vals : list V) : M unit :=
    mbind (send (db_insert t cols vals)) (fun _ => ret tt).
  (** ... and [lastrowid], the generated key [key] of the new row (None, here NULL, if the
      row was not inserted). *)
  Definition insert_id (t key : str) (cols : list str) (vals : list V) : M V := fun s =>
    match send (db_insert t cols vals) s with
    | (Err e, s') => (Err e, s')
    | (Ok None, s') => (Ok null, s')
    | (Ok (Some _), s') =>
        (Ok (match q_db s' t with
             | Some x => last (trows x) (fun _ => null) key
             | None => null
             end), s')
    end.

  (** sql_wrapper_session.py:387-389 [_load_namespace_indexes] *)
  Definition load_namespaces : M unit :=
    mbind (select (namespaces_query as_set)) (fun rows s =>
      (Ok tt, SqlS (q_db s) (map (fun r => (nth 0 r null, nth 1 r null)) rows))).
  (** [_ns_to_idx]: of two indexes of a namespace the later one *)
  Definition cached_idx (l : list (V * V)) (n : V) : option V :=
    option_map fst (find (fun x => same (snd x) n) (rev l)).
  Definition cached_ns (l : list (V * V)) (i : V) : option V :=
    option_map snd (find (fun x => same (fst x) i) l).
  (** sql_wrapper_session.py:248-258 [_get_ns_idx] *)
  Definition get_ns_idx (n : V) : M V := fun s =>
    match cached_idx (q_ns s) n with
    | Some i => (Ok i, s)
    | None =>
        mbind (insert NAMESPACES_TABLE [lit "namespace"] [n]) (fun _ =>
        mbind load_namespaces (fun _ s' =>
          (match cached_idx (q_ns s') n with Some i => Ok i | None => Err KeyError end, s'))) s
    end.
  (** sql_wrapper_session.py:260-263 [_get_ns] *)
  Definition get_ns (i : V) : M V := fun s =>
    match cached_ns (q_ns s) i with
    | Some n => (Ok n, s)
    | None => mbind load_namespaces (fun _ s' =>
                (match cached_ns (q_ns s') i with Some n => Ok n | None => Err KeyError end, s')) s
    end.
  (** sql_wrapper_session.py:241-246 [_split_namespace] of an entity *)
  Definition split_namespace (e : V * V) : M (V * V) :=
    mbind (get_ns_idx (fst e)) (fun i => ret (i, snd e)).
  (** sql_wrapper_session.py:321-334 [_get_cuds_idx] *)
  Definition get_cuds_idx (u : V) : M V :=
    mbind (select (cuds_lookup as_set u)) (fun rows =>
      match rows with
      | [] => insert_id CUDS_TABLE (lit "cuds_idx") [lit "uid"] [u]
      | (i :: _) :: _ => ret i
      | [] :: _ => lift (Err ValueError)
      end).
  (** sql_wrapper_session.py:336-352 [_get_entity_idx] after [_split_namespace] *)
  Definition get_entity_idx (e : V * V) : M V :=
    mbind (split_namespace e) (fun x =>
    mbind (select (entity_lookup as_set (fst x) (snd x))) (fun rows =>
      match rows with
      | [] => insert_id ENTITIES_TABLE (lit "entity_idx") [lit "ns_idx"; lit "name"] [fst x; snd x]
      | (i :: _) :: _ => ret i
      | [] :: _ => lift (Err ValueError)
      end)).

  (** A triple with the table it belongs in; an entity is (namespace IRI, name). *)
  Inductive striple :=
  | TRel (s : V) (p : V * V) (o : V)
  | TType (s : V) (c : V * V)
  | TData (t dt : str) (s : V) (p : V * V) (ws : list V).

  (** sql_wrapper_session.py:296-319 [_add] (one triple) with [_get_values] *)
  Definition add (x : striple) : M unit :=
    match x with
    | TRel s p o =>
        mbind (get_cuds_idx s) (fun si => mbind (get_entity_idx p) (fun pi =>
        mbind (get_cuds_idx o) (fun oi => mbind (lift (add_columns RELATIONSHIP_TABLE XSD_integer)) (fun cols =>
          insert RELATIONSHIP_TABLE cols [si; pi; oi]))))
    | TType s c =>
        mbind (get_cuds_idx s) (fun si => mbind (get_entity_idx c) (fun ci =>
        mbind (lift (add_columns TYPES_TABLE XSD_integer)) (fun cols =>
          insert TYPES_TABLE cols [si; ci])))
    | TData t dt s p ws =>
        mbind (get_cuds_idx s) (fun si => mbind (get_entity_idx p) (fun pi =>
        mbind (lift (add_columns t dt)) (fun cols => insert t cols (si :: pi :: ws))))
    end.

  (** A pattern on one table; None is a wildcard. *)
  Inductive spattern :=
  | PRel (s : option V) (p : option (V * V)) (o : option V)
  | PType (s : option V) (c : option (V * V))
  | PData (t dt : str) (s : option V) (p : option (V * V)) (ws : option (list V)).

  (** sql_wrapper_session.py:356-385 [_remove] on one table *)
  Definition remove (x : spattern) : M unit :=
    match x with
    | PRel s p o =>
        mbind (optM get_cuds_idx s) (fun si => mbind (optM get_entity_idx p) (fun pi =>
        mbind (optM get_cuds_idx o) (fun oi =>
        mbind (lift (construct_remove_condition as_set (IPattern si pi (option_map (fun o => [o]) oi))
                       RELATIONSHIP_TABLE XSD_integer)) (fun c =>
        mbind (send (db_delete RELATIONSHIP_TABLE (Some c))) (fun _ => ret tt)))))
    | PType s c =>
        mbind (optM get_cuds_idx s) (fun si => mbind (optM get_entity_idx c) (fun ci =>
        mbind (lift (construct_remove_condition as_set (IPattern si None (option_map (fun o => [o]) ci))
                       TYPES_TABLE XSD_integer)) (fun c =>
        mbind (send (db_delete TYPES_TABLE (Some c))) (fun _ => ret tt))))
    | PData t dt s p ws =>
        mbind (optM get_cuds_idx s) (fun si => mbind (optM get_entity_idx p) (fun pi =>
        mbind (lift (construct_remove_condition as_set (IPattern si pi ws) t dt)) (fun c =>
        mbind (send (db_delete t (Some c))) (fun _ => ret tt))))
    end.

  (** sql_wrapper_session.py:265-275 [_rows_to_triples] *)
  Definition row_to_triple (pat : spattern) (r : list V) : M striple :=
    match r with
    | s :: i :: nm :: r' =>
        mbind (get_ns i) (fun n =>
          match pat, r' with
          | PType _ _, _ => ret (TType s (n, nm))
          | PRel _ _ _, o :: _ => ret (TRel s (n, nm) o)
          | PRel _ _ _, [] => lift (Err IndexError)
          | PData t dt _ _ _, _ => ret (TData t dt s (n, nm) r')
          end)
    | _ => lift (Err IndexError)
    end.
  (** sql_wrapper_session.py:103-108, 176-236: the triples that fit a pattern *)
  Definition query (x : spattern) : M (list striple) :=
    match x with
    | PRel s p o =>
        mbind (optM split_namespace p) (fun pe =>
        mbind (lift (construct_query as_set (Pattern s pe (option_map OUid o)) RELATIONSHIP_TABLE XSD_integer)) (fun q =>
        mbind (select q) (mapMs (row_to_triple x))))
    | PType s c =>
        mbind (optM split_namespace c) (fun ce =>
        mbind (lift (construct_query as_set (Pattern s None (option_map (fun '(i, nm) => OEnt i nm) ce)) TYPES_TABLE XSD_integer)) (fun q =>
        mbind (select q) (mapMs (row_to_triple x))))
    | PData t dt s p ws =>
        mbind (optM split_namespace p) (fun pe =>
        mbind (lift (construct_query as_set (Pattern s pe (option_map OVal ws)) t dt)) (fun q =>
        mbind (select q) (mapMs (row_to_triple x))))
    end.

  (** sql_wrapper_session.py:133-147 [_queries_for_subject]: all tables ([tables]: the data
      tables with their datatypes; [order]: the iteration order of the set). *)
  Definition subject_patterns (tables : list (str * str)) (u : option V) : list spattern :=
    PRel u None None :: PType u None :: map (fun '(t, dt) => PData t dt u None None) tables.
  Definition remove_subject (tables : list (str * str)) (order : list spattern -> list spattern) (u : option V) : M unit :=
    mbind (mapMs remove (order (subject_patterns tables u))) (fun _ => ret tt).
  Definition query_subject (tables : list (str * str)) (order : list spattern -> list spattern) (u : option V) : M (list striple) :=
    mbind (mapMs query (order (subject_patterns tables u))) (fun l => ret (concat l)).

  (** sql_wrapper_session.py:393-419 [_initialize]: the CREATE statements ([texts],
      SqlTriple.v [initialize_texts]), then the namespaces are read (in the code before the
      data tables are created). *)
  Definition initialize (texts : list str) : M unit :=
    mbind (mapMs (fun t => send (t, [])) texts) (fun _ => load_namespaces).
  (** sql_wrapper_session.py:575-607 [_clear_database], the part that deletes the data.
      [names]: the data tables in the database (sqlite_session.py:168-172 [_get_table_names]). *)
  Definition clear_database (names texts : list str) : M unit :=
    mbind (mapMs (fun t => send (db_delete t None))
             (names ++ [TYPES_TABLE; RELATIONSHIP_TABLE; CUDS_TABLE; ENTITIES_TABLE; NAMESPACES_TABLE])) (fun _ =>
    initialize texts).
End Session.
Arguments sqls : clear implicits.
Arguments striple : clear implicits.
Arguments spattern : clear implicits.
Arguments SqlS {A}. Arguments q_db {A}. Arguments q_ns {A}.
Arguments TRel {A}. Arguments TType {A}. Arguments TData {A}.
Arguments PRel {A}. Arguments PType {A}. Arguments PData {A}.
