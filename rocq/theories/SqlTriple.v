(** The statements for triples: osp/core/session/db/sql_wrapper_session.py, methods
    [_construct_query], [_get_conditions], [_construct_remove_condition], [_add],
    [_default_select], [_initialize], as query objects and statement texts of SqlText.v.

    Simplifications: the values are the ones that go to the database, after
    [_split_namespace] and [convert_from] (C32, C33, C68); [check_characters], which only
    raises, is left out (C34). *)
From Coq Require Import String List NArith ZArith Lia Bool.
From Verif Require Import Prelude Utf8 Text Datatype SqlUtil SqlText.
Import ListNotations.
Local Open Scope list_scope.

(** sql_wrapper_session.py:23-32 *)
Definition CUDS_TABLE : str := lit "OSP_V1_CUDS".
Definition ENTITIES_TABLE : str := lit "OSP_V1_ENTITIES".
Definition TYPES_TABLE : str := lit "OSP_V1_TYPES".
Definition NAMESPACES_TABLE : str := lit "OSP_V1_NAMESPACES".
Definition RELATIONSHIP_TABLE : str := lit "OSP_V1_RELATIONS".

Definition XSD_integer : str := XSD ++ lit "integer".
Definition XSD_string : str := XSD ++ lit "string".

Section Triples.
  Context {A : Type}.
  (** A set of conditions, in the order in which it is iterated. *)
  Context (as_set : list (cond A) -> list (cond A)).

  (** The object of a pattern: a CUDS object (its uid), an entity (its namespace index and
      name), a literal (the values of its columns). *)
  Inductive pat_obj := OUid (v : nd A) | OEnt (ns name : nd A) | OVal (ws : list (nd A)).
  Record pattern := Pattern { p_s : option (nd A); p_p : option (nd A * nd A); p_o : option pat_obj }.

  (** EqualsCondition(table_name, "o", value, datatype) after [expand_vector_condition]
      (sql_util.py:376-393). *)
  Definition object_condition (table_name : str) (dt : str) (ws : list (nd A)) : res (cond A) :=
    match get_expanded_cols (lit "o") (Some dt) with
    | Err e => Err e
    | Ok (ocols, edt) =>
        let l := map (fun '(c, w) => CEq table_name c w edt) (combine ocols ws) in
        if is_vector (Some dt) then Ok (CAnd (as_set l))
        else match l with x :: _ => Ok x | [] => Err TypeError end
    end.

  (** sql_wrapper_session.py:207-236 [_get_conditions].  An object that does not belong in
      the table (not for tables from [_determine_table]) is a TypeError here. *)
  Definition get_conditions (pat : pattern) (table_name dt : str) : res (list (cond A)) :=
    let cs := match p_s pat with
              | Some uid => [CEq (lit "ts") (lit "uid") uid (Some (lit "UUID"))]
              | None => []
              end in
    let cp := match p_p pat with
              | Some (ns_idx, name) =>
                  if str_eqb table_name TYPES_TABLE then []
                  else [CEq (lit "tp") (lit "ns_idx") ns_idx (Some XSD_integer);
                        CEq (lit "tp") (lit "name") name (Some XSD_string)]
              | None => []
              end in
    match p_o pat with
    | None => Ok (cs ++ cp)
    | Some o =>
        if str_eqb table_name RELATIONSHIP_TABLE then
          match o with
          | OUid uid => Ok (cs ++ cp ++ [CEq (lit "to") (lit "uid") uid (Some (lit "UUID"))])
          | _ => Err TypeError
          end
        else if str_eqb table_name TYPES_TABLE then
          match o with
          | OEnt ns_idx name =>
              Ok (cs ++ cp ++ [CEq (lit "to") (lit "ns_idx") ns_idx (Some XSD_integer);
                               CEq (lit "to") (lit "name") name (Some XSD_string)])
          | _ => Err TypeError
          end
        else
          match o with
          | OVal ws => rmap (fun c => cs ++ cp ++ [c]) (object_condition table_name dt ws)
          | _ => Err TypeError
          end
    end.

  (** sql_wrapper_session.py:175-205 [_construct_query] *)
  Definition construct_query (pat : pattern) (table_name dt : str) : res (query A) :=
    let q := q_where as_set (q_new CUDS_TABLE [lit "uid"] (Some (lit "ts")))
               (Some (CJoin table_name (lit "s") (lit "ts") (lit "cuds_idx"))) in
    let entity := [lit "ns_idx"; lit "name"] in
    match (if str_eqb table_name TYPES_TABLE
           then rmap (fun q => q_where as_set q (Some (CJoin table_name (lit "o") (lit "to") (lit "entity_idx"))))
                  (q_join q ENTITIES_TABLE entity (Some (lit "to")))
           else rmap (fun q => q_where as_set q (Some (CJoin table_name (lit "p") (lit "tp") (lit "entity_idx"))))
                  (q_join q ENTITIES_TABLE entity (Some (lit "tp")))) with
    | Err e => Err e
    | Ok q =>
        match (if str_eqb table_name RELATIONSHIP_TABLE
               then rmap (fun q => q_where as_set q (Some (CJoin table_name (lit "o") (lit "to") (lit "cuds_idx"))))
                      (q_join q CUDS_TABLE [lit "uid"] (Some (lit "to")))
               else Ok q) with
        | Err e => Err e
        | Ok q =>
            match (if startswith DATA_TABLE_PREFIX table_name
                   then rmap fst (get_expanded_cols (lit "o") (Some dt)) else Ok []) with
            | Err e => Err e
            | Ok cols =>
                match q_join q table_name cols None, get_conditions pat table_name dt with
                | Err e, _ | _, Err e => Err e
                | Ok q, Ok l => Ok (q_where as_set q (Some (CAnd (as_set l))))
                end
            end
        end
    end.

  (** A pattern of indexes: subject, predicate, and the object (an index or values). *)
  Record ipattern := IPattern { i_s : option (nd A); i_p : option (nd A); i_o : option (list (nd A)) }.

  (** sql_wrapper_session.py:360-385 [_construct_remove_condition] after
      [_get_cuds_idx], [_get_entity_idx], and [expand_vector_condition]
      (sql_wrapper_session.py:542-546). *)
  Definition construct_remove_condition (pat : ipattern) (table dt : str) : res (cond A) :=
    let cs := match i_s pat with
              | Some s => [CEq table (lit "s") s (Some XSD_integer)]
              | None => []
              end in
    if str_eqb table TYPES_TABLE then
      match i_o pat with
      | None => Ok (CAnd (as_set cs))
      | Some (o :: _) => Ok (CAnd (as_set (cs ++ [CEq table (lit "o") o (Some XSD_integer)])))
      | Some [] => Err TypeError
      end
    else
      let cp := match i_p pat with
                | Some p => [CEq table (lit "p") p (Some XSD_integer)]
                | None => []
                end in
      match i_o pat with
      | None => Ok (CAnd (as_set (cs ++ cp)))
      | Some ws => rmap (fun c => CAnd (as_set (cs ++ cp ++ [c]))) (object_condition table dt ws)
      end.

  (** sql_wrapper_session.py:296-307 [_add]: the columns after the expansion of vectors. *)
  Definition add_columns (table_name dt : str) : res (list str) :=
    if str_eqb table_name TYPES_TABLE then Ok [lit "s"; lit "o"]
    else rmap (fun x => lit "s" :: lit "p" :: fst x) (get_expanded_cols (lit "o") (Some dt)).

  (** sql_wrapper_session.py:321-326, 336-344 [_get_cuds_idx], [_get_entity_idx], with
      559-565 [_default_select]: the lookups *)
  Definition cuds_lookup (uid : nd A) : query A :=
    q_where as_set (q_new CUDS_TABLE [lit "cuds_idx"; lit "uid"] None)
      (Some (CEq CUDS_TABLE (lit "uid") uid (Some (lit "UUID")))).
  Definition entity_lookup (ns_idx name : nd A) : query A :=
    q_where as_set (q_new ENTITIES_TABLE [lit "entity_idx"; lit "ns_idx"; lit "name"] None)
      (Some (CAnd (as_set [CEq ENTITIES_TABLE (lit "ns_idx") ns_idx (Some XSD_integer);
                           CEq ENTITIES_TABLE (lit "name") name (Some XSD_string)]))).
  (** 387-389 [_load_namespace_indexes] *)
  Definition namespaces_query : query A :=
    q_where as_set (q_new NAMESPACES_TABLE [lit "ns_idx"; lit "namespace"] None) None.
End Triples.
Arguments pat_obj : clear implicits.
Arguments pattern : clear implicits.
Arguments ipattern : clear implicits.
Arguments OUid {A}.
Arguments OEnt {A}.
Arguments OVal {A}.

(** ** The tables: sql_wrapper_session.py:32-97 [COLUMNS], [DATATYPES], [PRIMARY_KEY],
    [FOREIGN_KEY], [INDEXES] *)
Record schema := Schema {
  sc_table : str; sc_columns : list str; sc_datatypes : dict; sc_primary : list str;
  sc_foreign : list (str * (str * str)); sc_indexes : list (list str) }.

Fixpoint dict_of (l : list (str * option str)) : dict :=
  match l with [] => fun _ => None | (k, v) :: r => upd (dict_of r) k v end.
Definition integers (ks : list str) : list (str * option str) := map (fun k => (k, Some XSD_integer)) ks.
Definition sc_namespaces : schema :=
  Schema NAMESPACES_TABLE [lit "ns_idx"; lit "namespace"]
    (dict_of [(lit "ns_idx", Some XSD_integer); (lit "namespace", Some XSD_string)])
    [lit "ns_idx"] [] [[lit "namespace"]].
Definition sc_cuds : schema :=
  Schema CUDS_TABLE [lit "cuds_idx"; lit "uid"]
    (dict_of [(lit "cuds_idx", Some XSD_integer); (lit "uid", Some (lit "UUID"))])
    [lit "cuds_idx"] [] [[lit "uid"]].
Definition sc_entities : schema :=
  Schema ENTITIES_TABLE [lit "entity_idx"; lit "ns_idx"; lit "name"]
    (dict_of [(lit "entity_idx", Some XSD_integer); (lit "ns_idx", Some XSD_integer); (lit "name", Some XSD_string)])
    [lit "entity_idx"] [(lit "ns_idx", (NAMESPACES_TABLE, lit "ns_idx"))] [[lit "ns_idx"; lit "name"]].
Definition sc_types : schema :=
  Schema TYPES_TABLE [lit "s"; lit "o"] (dict_of (integers [lit "s"; lit "o"]))
    [lit "s"; lit "o"]
    [(lit "s", (CUDS_TABLE, lit "cuds_idx")); (lit "o", (ENTITIES_TABLE, lit "entity_idx"))]
    [[lit "s"]; [lit "o"]].
Definition sc_relations : schema :=
  Schema RELATIONSHIP_TABLE [lit "s"; lit "p"; lit "o"] (dict_of (integers [lit "s"; lit "p"; lit "o"]))
    [lit "s"; lit "p"; lit "o"]
    [(lit "s", (CUDS_TABLE, lit "cuds_idx")); (lit "p", (ENTITIES_TABLE, lit "entity_idx"));
     (lit "o", (CUDS_TABLE, lit "cuds_idx"))]
    [[lit "s"; lit "p"]; [lit "p"; lit "o"]].
(** The table for the values of a datatype, sql_wrapper_session.py:407-418. *)
Definition sc_data (table_name dt : str) : schema :=
  Schema table_name [lit "s"; lit "p"; lit "o"] (dict_of ((lit "o", Some dt) :: integers [lit "s"; lit "p"]))
    [] [(lit "s", (CUDS_TABLE, lit "cuds_idx")); (lit "p", (ENTITIES_TABLE, lit "entity_idx"))]
    [[lit "s"; lit "p"]].

(** sql_wrapper_session.py:499-506 [_do_db_create] *)
Definition create_texts (sc : schema) : res (list str) :=
  match expand_cols0 (sc_datatypes sc) (sc_datatypes sc) (sc_columns sc) with
  | Err e => Err e
  | Ok (cols, dts) => db_create (sc_table sc) cols dts (sc_primary sc) (sc_foreign sc) (sc_indexes sc)
  end.
(** sql_wrapper_session.py:393-419 [_initialize]: the statements, for the given datatypes
    in the order in which the set is iterated. *)
Definition initialize_schemas (datatypes : list str) : res (list schema) :=
  rmap (fun ds => [sc_namespaces; sc_cuds; sc_entities; sc_types; sc_relations] ++ ds)
    (mapM (fun dt => rmap (fun t => sc_data t dt) (get_data_table_name dt)) datatypes).
Definition initialize_texts (datatypes : list str) : res (list str) :=
  match initialize_schemas datatypes with
  | Err e => Err e
  | Ok scs => rmap (@concat str) (mapM create_texts scs)
  end.
