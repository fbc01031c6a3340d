(** The statements sent to SQLite: osp/wrappers/sqlite/sqlite_session.py, and the query
    objects of osp/core/session/db/sql_util.py.

    Simplifications: the columns are the ones after the expansion of vectors (C33); the
    calls of [check_characters] (C34), which only raise, are left out. *)
From Coq Require Import String List NArith ZArith Lia Bool.
From Verif Require Import Prelude Utf8 Text Datatype SqlUtil.
Import ListNotations.
Local Open Scope list_scope.

(** [f"`{s}`"] *)
Definition bq (s : str) : str := lit "`" ++ s ++ lit "`".

Section Text.
  Context {A : Type}.

  (** sqlite_session.py:174-218 [_get_condition_pattern], the text (the values are those
      of [get_condition_pattern] in SqlUtil.v). *)
  Fixpoint cond_text (x : cond A) (prefix : str) : str :=
    match x with
    | CEq t c _ _ => bq t ++ lit "." ++ bq c ++ lit "=:" ++ prefix ++ lit "_value"
    | CJoin t1 c1 t2 c2 => bq t1 ++ lit "." ++ bq c1 ++ lit " = " ++ bq t2 ++ lit "." ++ bq c2
    | CAnd [] => lit "1"
    | CAnd l =>
        (fix go (pattern : str) (i : N) l :=
           match l with
           | [] => pattern
           | y :: r =>
               let pattern := match pattern with [] => [] | _ => pattern ++ lit " AND " end in
               go (pattern ++ cond_text y (prefix ++ dec i)) (i + 1)%N r
           end) [] 0%N l
    end.
  Definition condition_text (x : option (cond A)) : str :=
    match x with None => lit "1" | Some x => cond_text x (lit "cond") end.
  Definition condition_params (x : option (cond A)) : params A :=
    match x with None => [] | Some x => snd (get_condition_pattern x (lit "cond")) end.

  (** ** Queries: sql_util.py:15-72 *)

  (** One entry of [order]: alias, table, columns; [tables] and [_columns] have the
      aliases of [order] as keys, in this order. *)
  Record query := Query { q_parts : list (str * str * list str); q_cond : option (cond A) }.

  (** [alias or table_name] *)
  Definition alias_or (alias : option str) (table_name : str) : str :=
    match alias with None | Some [] => table_name | Some a => a end.

  (** sql_util.py:18-28 [SqlQuery.__init__] *)
  Definition q_new (table_name : str) (columns : list str) (alias : option str) : query :=
    Query [(alias_or alias table_name, table_name, columns)] None.

  (** sql_util.py:30-35 [columns] *)
  Definition q_columns (q : query) : list (str * str) :=
    flat_map (fun '(a, _, cs) => map (fun c => (a, c)) cs) (q_parts q).

  (** sql_util.py:59-72 [join] *)
  Definition q_join (q : query) (table_name : str) (columns : list str) (alias : option str) : res query :=
    let a := alias_or alias table_name in
    if existsb (fun '(a', _, _) => str_eqb a a') (q_parts q) then Err ValueError
    else Ok (Query (q_parts q ++ [(a, table_name, columns)]) (q_cond q)).

  (** The [conditions] of an AndCondition are a set: the elements of a list, in any
      order. *)
  Context (as_set : list (cond A) -> list (cond A)).

  (** sql_util.py:37-57 [where], after the expansion of vectors (C33). *)
  Definition q_where (q : query) (c : option (cond A)) : query :=
    match c with
    | None => q
    | Some c =>
        Query (q_parts q) (Some
          match q_cond q with
          | None => c
          | Some (CAnd l) =>
              match c with
              | CAnd l' => CAnd (as_set (l ++ l'))
              | _ => CAnd (as_set (l ++ [c]))
              end
          | Some c0 =>
              match c with
              | CAnd l' => CAnd (as_set (l' ++ [c0]))
              | _ => CAnd (as_set [c0; c])
              end
          end)
    end.

  (** ** Statements *)

  (** sqlite_session.py:78-89 [_db_select] *)
  Definition db_select (q : query) : str * params A :=
    (lit "SELECT "
       ++ join_with (lit ", ") (map (fun '(a, c) => bq a ++ lit "." ++ bq c) (q_columns q))
       ++ lit " FROM "
       ++ join_with (lit ", ") (map (fun '(a, t, _) => bq t ++ lit " AS " ++ bq a) (q_parts q))
       ++ lit " WHERE " ++ condition_text (q_cond q) ++ lit ";",
     condition_params (q_cond q)).

  (** sqlite_session.py:220-247 [_to_sqlite_datatype].  "UUID" is the string in DATATYPES of
      sql_wrapper_session.py. *)
  Definition to_sqlite_datatype (dt : option str) : res str :=
    match dt with
    | None => Ok (lit "TEXT")
    | Some d =>
        if str_eqb d (lit "UUID") then Ok (lit "TEXT")
        else if str_eqb d (XSD ++ lit "integer") then Ok (lit "INTEGER")
        else if str_eqb d (XSD ++ lit "boolean") then Ok (lit "BOOLEAN")
        else if str_eqb d (XSD ++ lit "float") then Ok (lit "REAL")
        else if str_eqb d (XSD ++ lit "string") then Ok (lit "REAL")
        else if startswith STR_PREFIX d then Ok (lit "TEXT")
        else Err NotImplementedError
    end.

  (** sqlite_session.py:92-121 [_db_create]: the texts, executed one after the other. *)
  Definition db_create (table_name : str) (columns : list str) (datatypes : dict)
      (primary_key : list str) (foreign_key : list (str * (str * str))) (indexes : list (list str))
    : res (list str) :=
    rmap (fun columns =>
      let constraints :=
        (match primary_key with
         | [] => []
         | _ => [lit "PRIMARY KEY(" ++ join_with (lit ", ") (map bq primary_key) ++ lit ")"]
         end)
        ++ map (fun '(col, (t, c)) => lit "FOREIGN KEY(" ++ bq col ++ lit ") REFERENCES "
                                       ++ bq t ++ lit "(" ++ bq c ++ lit ")") foreign_key in
      (lit "CREATE TABLE IF NOT EXISTS " ++ bq table_name ++ lit " ("
         ++ join_with (lit ", ") (columns ++ constraints) ++ lit ");")
      :: map (fun index =>
           lit "CREATE INDEX IF NOT EXISTS "
             ++ bq (lit "idx_" ++ table_name ++ lit "_" ++ join_with (lit "_") index)
             ++ lit " ON " ++ bq table_name ++ lit "("
             ++ join_with (lit ", ") (map bq index) ++ lit ")") indexes)
      (mapM (fun c => match datatypes c with
                      | None => Ok c
                      | Some dt => rmap (fun ty => bq c ++ lit " " ++ bq ty) (to_sqlite_datatype dt)
                      end) columns).

  (** sqlite_session.py:124-137 [_db_insert], the statement. *)
  Definition db_insert (table_name : str) (columns : list str) (values : list (nd A)) : str * params A :=
    let '(names, vals) := sql_list_pattern (lit "val") values in
    (lit "INSERT INTO " ++ bq table_name ++ lit " (" ++ join_with (lit ", ") (map bq columns)
       ++ lit ") VALUES (" ++ join_with (lit ", ") (map (fun n => lit ":" ++ n) names) ++ lit ");",
     vals).

  (** sqlite_session.py:140-151 [_db_update] *)
  Definition db_update (table_name : str) (columns : list str) (values : list (nd A))
      (condition : option (cond A)) : str * params A :=
    let '(names, vals) := sql_list_pattern (lit "val") values in
    (lit "UPDATE " ++ bq table_name ++ lit " SET "
       ++ join_with (lit ", ") (map (fun '(c, v) => bq c ++ lit " = " ++ lit ":" ++ v) (combine columns names))
       ++ lit " WHERE " ++ condition_text condition ++ lit ";",
     vals ++ condition_params condition).

  (** sqlite_session.py:154-159 [_db_delete] *)
  Definition db_delete (table_name : str) (condition : option (cond A)) : str * params A :=
    (lit "DELETE FROM " ++ bq table_name ++ lit " WHERE " ++ condition_text condition ++ lit ";",
     condition_params condition).

  (** sqlite_session.py:162-165 [_db_drop] *)
  Definition db_drop (table_name : str) : str := lit "DROP TABLE IF EXISTS " ++ bq table_name.
End Text.
Arguments query : clear implicits.
