(** Migration of databases: osp/core/session/db/sql_migrate.py.

    The old schema: OSP_MASTER(uid, oclass), OSP_RELATIONSHIPS(origin, target, name)
    and one table CUDS_<class> per class with one column per attribute and uid.
    Simplifications: rows hold the entities instead of their names, an inner None is a
    name for which get_entity raises; an old data table is listed with the attributes of its class and their
    datatypes (oclass.attributes, C48, C49); all tables of the new schema are dropped
    together. *)
From stdpp Require Import base list.
From Verif Require Import Prelude Sql.
Local Open Scope N_scope.

Inductive tname : Set := TMaster | TRelationships | TCuds (c : N) | TV1 | TOther (n : N).
Global Instance tname_eq_dec : EqDecision tname.
Proof. solve_decision. Defined.

Section Model.
  Context {E NS NM D V W : Type}.
  Context `{EqDecision E} `{EqDecision NS} `{EqDecision NM} `{EqDecision D} `{EqDecision V} `{EqDecision W}.
  Context (rdf_type : E) (xsd_string : D) (wrapper : E) (inverse : E -> E).
  (* entity.namespace.get_iri() and entity.name *)
  Context (ens : E -> NS) (ename : E -> NM).
  Context (wr : D -> V -> option W) (fresh : list N -> N).
  Notation sdb := (sdb NS NM D W).
  Notation sess := (sess NS NM D W).

  Record old := Old {
    o_master : list (N * option (option E));        (* uid, class; None: the class is "" *)
    o_rels : list (N * N * option E);        (* origin, target, relationship *)
    o_data : list (option (list (E * option D)) * list (list V * N)) }.   (* attributes; rows with uid *)

  (** sql_migrate.py:13-40 [versions], [detect_current_schema_version] *)
  Definition detect (tables : list tname) : res N :=
    match tables with
    | [] => Ok 1
    | _ => if bool_decide (TMaster ∈ tables) then Ok 0
           else if bool_decide (TV1 ∈ tables) then Ok 1
           else Err RuntimeError
    end.
  (** sql_migrate.py:43-56 [check_supported_schema_version] *)
  Definition check_supported (tables : list tname) : res bool :=
    match detect tables with
    | Err e => Err e
    | Ok v => if bool_decide (v ∈ [1]) then Ok true else Err RuntimeError
    end.
  Inductive procedure := NoMigration | Migrate01.
  (** sql_migrate.py:216-221 [procedures] *)
  Definition procedures (v to : N) : res procedure :=
    if decide (v = 0) then if decide (to = 0) then Ok NoMigration else if decide (to = 1) then Ok Migrate01 else Err KeyError
    else Err KeyError.
  (** sql_migrate.py:62-68 [SqlMigrate.__init__] *)
  Definition init (tables : list tname) : res procedure :=
    match detect tables with Err e => Err e | Ok v => procedures v 1 end.

  (** sql_migrate.py:76-78: self.namespaces, self.entities, self.cuds *)
  Record mig := Mig { m_db : sdb; m_ns : list (N * NS); m_ents : list (N * E); m_cuds : list (N * N) }.
  Definition MM (A : Type) := mig -> res A * mig.
  Definition mret {A} (a : A) : MM A := fun m => (Ok a, m).
  Definition mfail {A} (e : exn) : MM A := fun m => (Err e, m).
  Definition mmbind {A B} (x : MM A) (f : A -> MM B) : MM B := fun m =>
    match x m with (Ok a, m') => f a m' | (Err e, m') => (Err e, m') end.
  Fixpoint mseq {A} (f : A -> MM ()) (l : list A) : MM () :=
    match l with [] => mret () | x :: l' => mmbind (f x) (fun _ => mseq f l') end.
  Definition of_option {A} (o : option A) : MM A :=
    match o with Some a => mret a | None => mfail KeyError end.
  (* an insert of Sql.v; it does not use the cached indexes of the session *)
  Definition db_insert (f : sess -> res () * sess) : MM () := fun m =>
    match f (Sess (m_db m) (t_ns (m_db m))) with
    | (r, s') => (r, Mig (s_db s') (m_ns m) (m_ents m) (m_cuds m))
    end.

  (** sql_migrate.py:169-177 [get_cuds_idx_0_1] *)
  Definition mig_cuds (u : N) : MM N := fun m =>
    match find_idx (m_cuds m) u with
    | Some i => (Ok i, m)
    | None => let db := m_db m in
        let i := fresh (map fst (t_cuds db)) in
        (Ok i, Mig (SDb (t_cuds db ++ [(i, u)]) (t_ents db) (t_ns db) (t_types db) (t_rels db) (t_data db))
                   (m_ns m) (m_ents m) (m_cuds m ++ [(i, u)]))
    end.
  (** sql_migrate.py:179-188 [get_ns_idx_0_1] *)
  Definition mig_ns (n : NS) : MM N := fun m =>
    match find_idx (m_ns m) n with
    | Some i => (Ok i, m)
    | None => let db := m_db m in
        let i := fresh (map fst (t_ns db)) in
        (Ok i, Mig (SDb (t_cuds db) (t_ents db) (t_ns db ++ [(i, n)]) (t_types db) (t_rels db) (t_data db))
                   (m_ns m ++ [(i, n)]) (m_ents m) (m_cuds m))
    end.
  (** sql_migrate.py:190-198 [get_entity_idx_0_1]: the name is stored *)
  Definition mig_ent (ni : N) (e : E) : MM N := fun m =>
    match find_idx (m_ents m) e with
    | Some i => (Ok i, m)
    | None => let db := m_db m in
        let i := fresh (map fst (t_ents db)) in
        (Ok i, Mig (SDb (t_cuds db) (t_ents db ++ [(i, (ni, ename e))]) (t_ns db) (t_types db) (t_rels db) (t_data db))
                   (m_ns m) (m_ents m ++ [(i, e)]) (m_cuds m))
    end.

  (** sql_migrate.py:94-111 [migrate_master_0_1] *)
  Definition mig_master (r : N * option (option E)) : MM () :=
    mmbind (match snd r with None => mret wrapper | Some c => of_option c end) (fun c =>
    mmbind (mig_ns (ens c)) (fun ni => mmbind (mig_ent ni c) (fun oi => mmbind (mig_cuds (fst r)) (fun si =>
    db_insert (insert_types (si, oi)))))).
  (** sql_migrate.py:113-138 [migrate_relations_0_1] *)
  Definition mig_rel (r : N * N * option E) : MM () :=
    let '(o, t, rel) := r in
    mmbind (of_option rel) (fun rel =>
    mmbind (mig_ns (ens rel)) (fun ni => mmbind (mig_ent ni rel) (fun p =>
    mmbind (mig_cuds o) (fun si => mmbind (mig_cuds t) (fun oi =>
    mmbind (db_insert (insert_rels (si, p, oi))) (fun _ =>
    if decide (t = 0) then
      mmbind (mig_ns (ens (inverse rel))) (fun ni => mmbind (mig_ent ni (inverse rel)) (fun p =>
      db_insert (insert_rels (oi, p, si))))
    else mret ())))))).
  (** sql_migrate.py:140-167 [migrate_data_0_1], [migrate_data_table_0_1],
      [migrate_data_triple_0_1].  zip stops at the shortest of columns, attributes
      and row. *)
  Definition mig_triple (si : N) (x : (E * option D) * V) : MM () :=
    let '(a, d, v) := x in
    mmbind (mig_ns (ens a)) (fun ni => mmbind (mig_ent ni a) (fun p =>
    db_insert (insert_data wr (default xsd_string d) si p v))).
  Definition mig_row (attrs : list (E * option D)) (row : list V * N) : MM () :=
    mmbind (mig_cuds (snd row)) (fun si => mseq (mig_triple si) (zip attrs (fst row))).
  Definition mig_table (t : option (list (E * option D)) * list (list V * N)) : MM () :=
    mmbind (of_option (fst t)) (fun attrs => mseq (mig_row attrs) (snd t)).

  Definition migrate_all (d : old) : MM () :=
    mmbind (mseq mig_master (o_master d)) (fun _ =>
    mmbind (mseq mig_rel (o_rels d)) (fun _ => mseq mig_table (o_data d))).

  (** sql_migrate.py:74-92 [migrate_0_1], 208-211 [delete_old_tables_0].  [tables] are
      the names read before the migration; v1 the content of tables of the new schema
      that already exist.  The result: old tables (None: dropped), new tables. *)
  Definition migrate_0_1 (tables : list tname) (tabs : list D) (d : old) (v1 : sdb)
    : res () * (option old * sdb) :=
    match migrate_all d (Mig (s_db (initialize tabs v1)) [] [] []) with
    | (Ok _, m) => (Ok (), (None, if bool_decide (TV1 ∈ tables) then empty_db else m_db m))
    | (Err e, _) => (Err e, (Some d, v1))
    end.
End Model.
Arguments old : clear implicits. Arguments mig : clear implicits.
