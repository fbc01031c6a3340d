(** The triple store in relational tables:
    osp/core/session/db/sql_wrapper_session.py (SqlWrapperSession).

    The tables are those of [COLUMNS] (lines 22-37); a row is a tuple of column
    values.  The functions work on the state of the session: the database inside the
    running transaction and the cached namespace indexes [_ns_to_idx], [_idx_to_ns].
    An exception leaves behind the effects made before it.

    Simplifications: a data table is identified with the datatype of its column o
    (sql_util.py get_data_table_name / determine_datatype, whose round trip is C35);
    the vector columns of one row are one database value (C33); the text of the SQL
    statements and their parameters is not modelled here (C34, C36); a select is the
    filtered cross product of its tables, as written in [_construct_query]; foreign
    keys are not enforced (sqlite's default). *)
From stdpp Require Import base list.
From Verif Require Import Prelude.
Local Open Scope N_scope.

(** sqlite raises OperationalError for a missing table. *)
Definition NoSuchTable : exn := OtherError 1.

Section Model.
  (* entity IRIs, namespace IRIs, names, datatypes, literal values, column values *)
  Context {E NS NM D V W : Type}.
  Context `{EqDecision E} `{EqDecision NS} `{EqDecision NM} `{EqDecision D} `{EqDecision V} `{EqDecision W}.

  (** Objects of triples and of patterns; subjects are CUDS objects (their uid). *)
  Inductive node := NCuds (u : N) | NEnt (e : E) | NLit (v : V) (d : option D).
  Definition striple := (N * E * node)%type.
  Definition spattern := (option N * option E * option node)%type.

  Inductive table := TTypes | TRels | TData (d : D).
  Inductive pkind := PRel | PAttr (d : option D).

  Context (rdf_type : E) (xsd_string : D).
  (* ontology/namespace_registry.py:177-194 and sql_wrapper_session.py:232-237:
     the IRI is cut at the end of its namespace *)
  Context (split : E -> NS * NM) (join : NS -> NM -> E).
  (* from_iri of a predicate: a relationship, or an attribute with its datatype *)
  Context (kind : E -> option pkind).
  (* datatypes.py convert_from and Literal.toPython; None: it raises.
     datatypes.py convert_to and Literal(...): the value read back *)
  Context (wr : D -> V -> option W) (rd : D -> W -> V).
  (* automatically generated primary key: any number not in use *)
  Context (fresh : list N -> N).
  (* iteration order of a Python set of tables *)
  Context (order : list table -> list table).

  Record sdb := SDb {
    t_cuds : list (N * N);            (* cuds_idx, uid *)
    t_ents : list (N * (N * NM));     (* entity_idx, ns_idx, name *)
    t_ns : list (N * NS);             (* ns_idx, namespace *)
    t_types : list (N * N);           (* s, o *)
    t_rels : list (N * N * N);        (* s, p, o *)
    t_data : list (D * list (N * N * W)) }.
  Record sess := Sess { s_db : sdb; s_cache : list (N * NS) }.

  Definition M (A : Type) := sess -> res A * sess.
  Definition ret {A} (a : A) : M A := fun s => (Ok a, s).
  Definition fail {A} (e : exn) : M A := fun s => (Err e, s).
  Definition mbind' {A B} (m : M A) (f : A -> M B) : M B := fun s =>
    match m s with (Ok a, s') => f a s' | (Err e, s') => (Err e, s') end.
  Fixpoint mapMs {A B} (f : A -> M B) (l : list A) : M (list B) :=
    match l with
    | [] => ret []
    | x :: l' => mbind' (f x) (fun y => mbind' (mapMs f l') (fun ys => ret (y :: ys)))
    end.

  (** ** Lookups *)
  Fixpoint find_idx {A} `{EqDecision A} (l : list (N * A)) (a : A) : option N :=
    match l with
    | [] => None
    | (i, b) :: l' => if decide (b = a) then Some i else find_idx l' a
    end.
  Fixpoint find_val {A} (l : list (N * A)) (i : N) : option A :=
    match l with
    | [] => None
    | (j, b) :: l' => if decide (j = i) then Some b else find_val l' i
    end.

  (** sql_wrapper_session.py:387-389 [_load_namespace_indexes].  _ns_to_idx maps a
      namespace that occurs twice to its last index, hence the reversal below. *)
  Definition load_ns (s : sess) : sess := Sess (s_db s) (t_ns (s_db s)).

  (** sql_wrapper_session.py:248-258 [_get_ns_idx] *)
  Definition get_ns_idx (n : NS) : M N := fun s =>
    match find_idx (rev (s_cache s)) n with
    | Some i => (Ok i, s)
    | None =>
        let db := s_db s in
        let i := fresh (map fst (t_ns db)) in
        let s' := load_ns (Sess (SDb (t_cuds db) (t_ents db) (t_ns db ++ [(i, n)])
                                 (t_types db) (t_rels db) (t_data db)) []) in
        match find_idx (rev (s_cache s')) n with
        | Some i => (Ok i, s')
        | None => (Err KeyError, s')
        end
    end.

  (** sql_wrapper_session.py:260-263 [_get_ns] *)
  Definition get_ns (i : N) : M NS := fun s =>
    match find_val (s_cache s) i with
    | Some n => (Ok n, s)
    | None => let s' := load_ns s in
              match find_val (s_cache s') i with
              | Some n => (Ok n, s')
              | None => (Err KeyError, s')
              end
    end.

  (** sql_wrapper_session.py:241-246 [_split_namespace] of an entity *)
  Definition split_ns (e : E) : M (N * NM) :=
    mbind' (get_ns_idx (fst (split e))) (fun i => ret (i, snd (split e))).

  (** sql_wrapper_session.py:321-334 [_get_cuds_idx] *)
  Definition get_cuds_idx (u : N) : M N := fun s =>
    let db := s_db s in
    match find_idx (t_cuds db) u with
    | Some i => (Ok i, s)
    | None => let i := fresh (map fst (t_cuds db)) in
              (Ok i, Sess (SDb (t_cuds db ++ [(i, u)]) (t_ents db) (t_ns db)
                               (t_types db) (t_rels db) (t_data db)) (s_cache s))
    end.

  (** sql_wrapper_session.py:336-352 [_get_entity_idx] *)
  Definition get_entity_idx (x : N * NM) : M N := fun s =>
    let db := s_db s in
    match find_idx (t_ents db) x with
    | Some i => (Ok i, s)
    | None => let i := fresh (map fst (t_ents db)) in
              (Ok i, Sess (SDb (t_cuds db) (t_ents db ++ [(i, x)]) (t_ns db)
                               (t_types db) (t_rels db) (t_data db)) (s_cache s))
    end.

  (** sql_wrapper_session.py:149-174 [_determine_table] *)
  Definition determine_table (p : option E) (o : option node) : res table :=
    match o with
    | Some (NCuds _) => Ok TRels
    | Some (NEnt _) => Ok TTypes
    | Some (NLit _ (Some d)) => Ok (TData d)
    | _ =>
        match p with
        | None => Err TypeError         (* returns None, which is then unpacked *)
        | Some p =>
            if decide (p = rdf_type) then Ok TTypes
            else match kind p with
                 | None => Err KeyError
                 | Some PRel => Ok TRels
                 | Some (PAttr d) => Ok (TData (default xsd_string d))
                 end
        end
    end.

  (** ** Add: sql_wrapper_session.py:296-308 [_add], [_get_values] *)

  (* INSERT; a row that violates the primary key is skipped
     (wrappers/sqlite/sqlite_session.py:125-131); data tables have none. *)
  Definition upd_types f (s : sess) : sess := let db := s_db s in
    Sess (SDb (t_cuds db) (t_ents db) (t_ns db) (f (t_types db)) (t_rels db) (t_data db)) (s_cache s).
  Definition upd_rels f (s : sess) : sess := let db := s_db s in
    Sess (SDb (t_cuds db) (t_ents db) (t_ns db) (t_types db) (f (t_rels db)) (t_data db)) (s_cache s).
  Definition upd_data (d : D) f (s : sess) : sess := let db := s_db s in
    Sess (SDb (t_cuds db) (t_ents db) (t_ns db) (t_types db) (t_rels db)
              (map (fun x => if decide (fst x = d) then (fst x, f (snd x)) else x) (t_data db))) (s_cache s).
  Definition has_table (d : D) (s : sess) : bool := bool_decide (d ∈ map fst (t_data (s_db s))).

  Definition insert_types (r : N * N) : M () := fun s =>
    (Ok (), upd_types (fun l => if decide (r ∈ l) then l else l ++ [r]) s).
  Definition insert_rels (r : N * N * N) : M () := fun s =>
    (Ok (), upd_rels (fun l => if decide (r ∈ l) then l else l ++ [r]) s).
  Definition insert_data (d : D) (si pi : N) (v : V) : M () := fun s =>
    match wr d v with
    | None => (Err ValueError, s)
    | Some w => if has_table d s then (Ok (), upd_data d (fun l => l ++ [(si, pi, w)]) s)
                else (Err NoSuchTable, s)
    end.

  (* o.toPython() of an object that is no literal is stored as text in a data table
     or looked up as an entity: an error in the model *)
  Definition add1 (t : striple) : M () :=
    let '(u, p, o) := t in
    match determine_table (Some p) (Some o) with
    | Err e => fail e
    | Ok TTypes =>
        mbind' (get_cuds_idx u) (fun si =>
          match o with
          | NEnt e => mbind' (split_ns e) (fun x => mbind' (get_entity_idx x) (fun oi => insert_types (si, oi)))
          | _ => fail AttributeError
          end)
    | Ok TRels =>
        mbind' (get_cuds_idx u) (fun si =>
        mbind' (split_ns p) (fun x => mbind' (get_entity_idx x) (fun pi =>
          match o with
          | NCuds u' => mbind' (get_cuds_idx u') (fun oi => insert_rels (si, pi, oi))
          | _ => fail AttributeError
          end)))
    | Ok (TData d) =>
        mbind' (get_cuds_idx u) (fun si =>
        mbind' (split_ns p) (fun x => mbind' (get_entity_idx x) (fun pi =>
          match o with
          | NLit v _ => insert_data d si pi v
          | _ => fail AttributeError
          end)))
    end.
  Definition add (ts : list striple) : M () := mbind' (mapMs add1 ts) (fun _ => ret ()).

  (** ** Queries *)

  (** sql_wrapper_session.py:133-147 [_queries_for_subject]: the tables *)
  Definition all_tables (s : sess) : list table := TRels :: TTypes :: map TData (map fst (t_data (s_db s))).

  Definition is_rels (t : table) : bool := match t with TRels => true | _ => false end.

  (** Evaluated conditions of [_get_conditions], sql_wrapper_session.py:200-230 *)
  Record cond := Cond { c_s : option N; c_p : option (N * NM); c_oc : option N; c_oe : option (N * NM); c_ov : option W }.
  Definition get_conditions (pat : spattern) (t : table) : M cond :=
    let '(s, p, o) := pat in
    mbind' (match p, t with
            | Some e, TTypes => ret None
            | Some e, _ => mbind' (split_ns e) (fun x => ret (Some x))
            | None, _ => ret None
            end) (fun cp =>
    match o, t with
    | None, _ => ret (Cond s cp None None None)
    | Some (NCuds u), TRels => ret (Cond s cp (Some u) None None)
    | Some (NEnt e), TTypes => mbind' (split_ns e) (fun x => ret (Cond s cp None (Some x) None))
    | Some (NLit v _), TData d => match wr d v with Some w => ret (Cond s cp None None (Some w)) | None => fail ValueError end
    | _, _ => fail AttributeError
    end).

  Definition holds_opt {A} `{EqDecision A} (c : option A) (a : A) : bool :=
    match c with None => true | Some b => bool_decide (a = b) end.

  (** sql_wrapper_session.py:176-206 [_construct_query]: the columns selected are the
      subject's uid, the entity's ns_idx and name, and the object's uid or value. *)
  Definition select_types (db : sdb) (c : cond) : list (N * (N * NM)) :=
    flat_map (fun '(ci, u) => flat_map (fun '(ei, x) => 
    flat_map (fun '(s, o) =>
    if bool_decide (s = ci) && bool_decide (o = ei) && holds_opt (c_s c) u && holds_opt (c_oe c) x
    then [(u, x)] else []) (t_types db)) (t_ents db)) (t_cuds db).
  Definition select_rels (db : sdb) (c : cond) : list (N * (N * NM) * N) :=
    flat_map (fun '(ci, u) => flat_map (fun '(ei, x) => flat_map (fun '(cj, u') => 
    flat_map (fun '(s, p, o) =>
    if bool_decide (s = ci) && bool_decide (p = ei) && bool_decide (o = cj) &&
       holds_opt (c_s c) u && holds_opt (c_p c) x && holds_opt (c_oc c) u'
    then [(u, x, u')] else []) (t_rels db)) (t_cuds db)) (t_ents db)) (t_cuds db).
  Fixpoint data_rows (d : D) (l : list (D * list (N * N * W))) : list (N * N * W) :=
    match l with [] => [] | (d', r) :: l' => if decide (d' = d) then r else data_rows d l' end.
  Definition select_data (db : sdb) (d : D) (c : cond) : list (N * (N * NM) * W) :=
    flat_map (fun '(ci, u) => flat_map (fun '(ei, x) => 
    flat_map (fun '(s, p, o) =>
    if bool_decide (s = ci) && bool_decide (p = ei) &&
       holds_opt (c_s c) u && holds_opt (c_p c) x && holds_opt (c_ov c) o
    then [(u, x, o)] else []) (data_rows d (t_data db))) (t_ents db)) (t_cuds db).

  (** sql_wrapper_session.py:265-275 [_rows_to_triples] *)
  Definition iri_of (x : N * NM) : M E := mbind' (get_ns (fst x)) (fun n => ret (join n (snd x))).
  Definition run_select (t : table) (c : cond) : M (list striple) := fun s =>
    match t with
    | TTypes => mapMs (fun r : N * (N * NM) => mbind' (iri_of (snd r)) (fun e => ret (fst r, rdf_type, NEnt e)))
                  (select_types (s_db s) c) s
    | TRels => mapMs (fun r : N * (N * NM) * N => mbind' (iri_of (snd (fst r))) (fun e => ret (fst (fst r), e, NCuds (snd r))))
                  (select_rels (s_db s) c) s
    | TData d => if has_table d s
                 then mapMs (fun r : N * (N * NM) * W => mbind' (iri_of (snd (fst r)))
                               (fun e => ret (fst (fst r), e, NLit (rd d (snd r)) (Some d))))
                        (select_data (s_db s) d c) s
                 else (Err NoSuchTable, s)
    end.

  Definition query (pat : spattern) (t : table) : M (list striple) :=
    mbind' (get_conditions pat t) (run_select t).
  (** sql_wrapper_session.py:110-115 [_triples_for_subject] *)
  Definition triples_for_subject (u : option N) (ts : list table) : M (list striple) :=
    mbind' (mapMs (query (u, None, None)) (order ts)) (fun l => ret (mjoin l)).

  (** sql_wrapper_session.py:103-108 [_triples], [_queries] *)
  Definition triples (pat : spattern) : M (list striple) := fun s =>
    match pat with
    | (u, None, None) => triples_for_subject u (all_tables s) s
    | (_, p, o) => match determine_table p o with
                   | Err e => (Err e, s)
                   | Ok t => query pat t s
                   end
    end.

  (** sql_wrapper_session.py:279-292 [_load_triples_for_iri] *)
  Definition load_triples_for_iri (u : N) : M (list striple * list striple) :=
    mbind' (triples_for_subject (Some u) [TRels]) (fun ts =>
    mbind' (mapMs (fun t : striple => match t with
                            | (_, _, NCuds o) => triples (Some o, Some rdf_type, None)
                            | _ => ret []
                            end) ts) (fun ns =>
    fun s => mbind' (triples_for_subject (Some u) (filter (fun t => is_rels t = false) (all_tables s)))
      (fun ts' => ret (ts ++ ts', mjoin ns)) s)).

  (** ** Remove: sql_wrapper_session.py:356-358 [_remove], [_construct_remove_condition] *)
  Definition remove_from (pat : spattern) (t : table) : M () :=
    let '(u, p, o) := pat in
    mbind' (match u with None => ret None | Some u => mbind' (get_cuds_idx u) (fun i => ret (Some i)) end) (fun cs =>
    match t with
    | TTypes =>
        mbind' (match o with
                | None => ret None
                | Some (NEnt e) => mbind' (split_ns e) (fun x => mbind' (get_entity_idx x) (fun i => ret (Some i)))
                | Some _ => fail AttributeError
                end) (fun co =>
        fun s => (Ok (), upd_types (filter (fun r => negb (holds_opt cs (fst r) && holds_opt co (snd r)) = true)) s))
    | _ =>
        mbind' (match p with
                | None => ret None
                | Some e => mbind' (split_ns e) (fun x => mbind' (get_entity_idx x) (fun i => ret (Some i)))
                end) (fun cp =>
        match t, o with
        | TRels, Some (NCuds u') =>
            mbind' (get_cuds_idx u') (fun co =>
            fun s => (Ok (), upd_rels (filter (fun r => negb (holds_opt cs (fst (fst r)) && holds_opt cp (snd (fst r)) &&
                                                              bool_decide (snd r = co)) = true)) s))
        | TRels, None =>
            fun s => (Ok (), upd_rels (filter (fun r => negb (holds_opt cs (fst (fst r)) && holds_opt cp (snd (fst r))) = true)) s)
        | TData d, Some (NLit v _) =>
            match wr d v with
            | None => fail ValueError
            | Some w => fun s =>
                if has_table d s then
                  (Ok (), upd_data d (filter (fun r => negb (holds_opt cs (fst (fst r)) && holds_opt cp (snd (fst r)) &&
                                                             bool_decide (snd r = w)) = true)) s)
                else (Err NoSuchTable, s)
            end
        | TData d, None => fun s =>
            if has_table d s then
              (Ok (), upd_data d (filter (fun r => negb (holds_opt cs (fst (fst r)) && holds_opt cp (snd (fst r))) = true)) s)
            else (Err NoSuchTable, s)
        | _, _ => fail AttributeError
        end)
    end).
  Definition remove (pat : spattern) : M () := fun s =>
    match pat with
    | (u, None, None) => mbind' (mapMs (remove_from pat) (order (all_tables s))) (fun _ => ret ()) s
    | (_, p, o) => match determine_table p o with
                   | Err e => (Err e, s)
                   | Ok t => remove_from pat t s
                   end
    end.

  (** ** Sessions *)

  (** sql_wrapper_session.py:393-418 [_initialize]: missing tables are created, the
      namespace indexes are loaded.  tabs: the datatypes of the ontology. *)
  Definition initialize (tabs : list D) (db : sdb) : sess :=
    load_ns (Sess (SDb (t_cuds db) (t_ents db) (t_ns db) (t_types db) (t_rels db)
      (t_data db ++ map (fun d => (d, [])) (filter (fun d => d ∉ map fst (t_data db)) (remove_dups tabs)))) []).
  Definition empty_db : sdb := SDb [] [] [] [] [] [].

  (** wrappers/sqlite/sqlite_session.py:54-62: rolling back restores the tables, not
      the cached indexes of the session. *)
  Definition rollback (before : sdb) (s : sess) : sess := Sess before (s_cache s).
End Model.
Arguments node : clear implicits. Arguments striple : clear implicits. Arguments spattern : clear implicits.
Arguments table : clear implicits. Arguments sdb : clear implicits. Arguments sess : clear implicits.
Arguments pkind : clear implicits.
