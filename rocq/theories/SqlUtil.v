(** Backend independent SQL helpers: osp/core/session/db/sql_util.py, and the
    translation of conditions in osp/wrappers/sqlite/sqlite_session.py. *)
From Coq Require Import String List NArith ZArith Lia Bool.
From Verif Require Import Prelude Utf8 Text Datatype.
Import ListNotations.
Local Open Scope nat_scope.
Local Open Scope list_scope.

(** ** Table names *)

Definition OWL : str := lit "http://www.w3.org/2002/07/owl#".
Definition RDF : str := lit "http://www.w3.org/1999/02/22-rdf-syntax-ns#".
Definition RDFS : str := lit "http://www.w3.org/2000/01/rdf-schema#".
(** sql_wrapper_session.py:31 *)
Definition DATA_TABLE_PREFIX : str := lit "DATA_V1_".
Definition CUBA_DT : str := CUBA ++ lit "_datatypes/".

(** sql_util.py:202-226 [get_data_table_name] *)
Definition get_data_table_name (dt : str) : res str :=
  let p := DATA_TABLE_PREFIX in
  if startswith XSD dt then Ok (p ++ lit "XSD_" ++ after XSD dt)
  else if startswith OWL dt then Ok (p ++ lit "OWL_" ++ after OWL dt)
  else if startswith RDF dt then Ok (p ++ lit "RDF_" ++ after RDF dt)
  else if startswith RDFS dt then Ok (p ++ lit "RDFS_" ++ after RDFS dt)
  else if startswith CUBA_DT dt then Ok (p ++ after CUBA_DT dt)
  else Err NotImplementedError.

(** sql_util.py:178-199 [determine_datatype].  Simplification: [getattr] on an
    rdflib namespace is concatenation (true for the vocabulary of the namespaces). *)
Definition determine_datatype (t : str) : str :=
  let p := DATA_TABLE_PREFIX in
  if startswith (p ++ lit "OWL_") t then OWL ++ after (p ++ lit "OWL_") t
  else if startswith (p ++ lit "RDFS_") t then RDFS ++ after (p ++ lit "RDFS_") t
  else if startswith (p ++ lit "RDF_") t then RDF ++ after (p ++ lit "RDF_") t
  else if startswith (p ++ lit "XSD_") t then XSD ++ after (p ++ lit "XSD_") t
  else CUBA_DT ++ after p t.

(** ** Forbidden characters *)

(** The arguments of [check_characters]: nested Python objects. *)
Inductive pobj :=
| OStr (s : str)                                   (* str, also URIRef *)
| OList (l : list pobj)                            (* list, tuple *)
| ODict (ks vs : list pobj)                        (* dict: its keys and values *)
| OAnd (l : list pobj)                             (* AndCondition: its conditions *)
| OEq (t c : str) (dt : pobj)                      (* EqualsCondition (value not looked at) *)
| OJoin (t1 c1 t2 c2 : str)
| ONone
| OOther.                                          (* any other object *)

(** sql_util.py:237-238; \x08 backspace, \x09 tab, \x1a. *)
Definition forbidden_chars : list N :=
  [59; 0; 13; 8; 9; 26; 10; 13; 34; 39; 96; 92; 37]%N.

Fixpoint osize (o : pobj) : nat :=
  match o with
  | OStr _ | ONone | OOther => 1
  | OList l | OAnd l => S (list_sum (map osize l))
  | ODict ks vs => S (list_sum (map osize ks) + list_sum (map osize vs))
  | OEq _ _ d => S (2 + osize d)
  | OJoin _ _ _ _ => 5
  end.
Definition stack_size (l : list pobj) : nat := list_sum (map osize l).

(** sql_util.py:242-265, the [while to_check] loop for the character [c].  The stack
    is written top first ([to_check.pop()] takes the last element). *)
Fixpoint check_loop (fuel : nat) (c : N) (stack : list pobj) : res unit :=
  match stack with
  | [] => Ok tt
  | o :: rest =>
      match fuel with
      | O => Err OutOfFuel
      | S fuel' =>
          match o with
          | OStr s =>
              match utf8_encode s with
              | Err e => Err e
              | Ok _ => if existsb (N.eqb c) s then Err ValueError
                        else check_loop fuel' c rest
              end
          | OList l => check_loop fuel' c (rev l ++ rest)
          | ODict ks vs => check_loop fuel' c (rev vs ++ rev ks ++ rest)
          | OAnd l => check_loop fuel' c (rev l ++ rest)
          | OEq t col d => check_loop fuel' c (d :: OStr col :: OStr t :: rest)
          | OJoin t1 c1 t2 c2 =>
              check_loop fuel' c (OStr c2 :: OStr t2 :: OStr c1 :: OStr t1 :: rest)
          | ONone => check_loop fuel' c rest
          | OOther => Err ValueError
          end
      end
  end.

(** sql_util.py:241: [for c in forbidden_chars: while to_check: ...].  [to_check] is
    the same list for all characters: the loop for the first character empties it. *)
Fixpoint check_all (cs : list N) (stack : list pobj) : res unit :=
  match cs with
  | [] => Ok tt
  | c :: cs' => match check_loop (stack_size stack) c stack with
                | Err e => Err e
                | Ok _ => check_all cs' []
                end
  end.

(** sql_util.py:227-265 [check_characters] *)
Definition check_characters (args : list pobj) : res unit :=
  check_all forbidden_chars (rev args).

(** ** Vector columns *)

(** [Dict[str, URIRef or None]]; the outer None: the key is missing. *)
Definition dict := str -> option (option str).
Definition upd (d : dict) (k : str) (v : option str) : dict :=
  fun k' => if str_eqb k' k then Some v else d k'.

Definition is_vector (dt : option str) : bool :=
  match dt with None => false | Some i => startswith VEC_PREFIX i end.

(** ["%s___%s" % (column, x)] *)
Definition vec_col (column : str) (i : N) : str := column ++ lit "___" ++ dec i.

Definition range (n : nat) : list N := map N.of_nat (seq 0 n).

(** sql_util.py:399-418 [get_expanded_cols] *)
Definition get_expanded_cols (column : str) (dt : option str)
  : res (list str * option str) :=
  match dt with
  | None => Err AttributeError                              (* None.startswith *)
  | Some i =>
      if startswith VEC_PREFIX i then
        match parse_vector_args (split_on 45 (after VEC_PREFIX i)) with
        | Err e => Err e
        | Ok (b, []) => Err TypeError                       (* reduce of empty *)
        | Ok (b, sh) =>
            Ok (map (vec_col column) (range (Z.to_nat (fold_right Z.mul 1%Z sh))),
                Some (rdf_name b))
        end
      else Ok ([column], dt)
  end.

Section Vectors.
  Context {A : Type}.
  Variable conv : basic -> A -> res A.
  Variable str_of : A -> str.
  Variable of_str : str -> A.
  Notation convert_to := (convert_to conv str_of of_str).
  Notation convert_from := (convert_from conv).

  Definition items (v : nd A) : list (nd A) :=
    match v with Nest l => l | Leaf _ => [v] end.

  (** sql_util.py:296-319, the loop of [expand_vector_cols] with values.
      [orig]: the datatypes given, [dts]: datatypes_expanded so far. *)
  Fixpoint expand_cols (orig dts : dict) (cols : list str) (vals : list (nd A))
    : res (list str * dict * list (nd A)) :=
    match cols with
    | [] => Ok ([], dts, [])
    | c :: cols' =>
        match orig c with
        | None => Err KeyError
        | Some dt =>
            if negb (is_vector dt) then
              match vals with
              | [] => Err IndexError
              | v :: vals' =>
                  match expand_cols orig (upd dts c dt) cols' vals' with
                  | Err e => Err e
                  | Ok (cs, d, vs) => Ok (c :: cs, d, v :: vs)
                  end
              end
            else
              match get_expanded_cols c dt with
              | Err e => Err e
              | Ok (ecols, edt) =>
                  match vals with
                  | [] => Err IndexError
                  | v :: vals' =>
                      match convert_from v dt with
                      | Err e => Err e
                      | Ok fv =>
                          let dts1 := fold_left (fun d k => upd d k edt) ecols dts in
                          match expand_cols orig (upd dts1 c dt) cols' vals' with
                          | Err e => Err e
                          | Ok (cs, d, vs) => Ok (ecols ++ cs, d, items fv ++ vs)
                          end
                      end
                  end
              end
        end
    end.

  (** sql_util.py:271-320 [expand_vector_cols] without values. *)
  Fixpoint expand_cols0 (orig dts : dict) (cols : list str) : res (list str * dict) :=
    match cols with
    | [] => Ok ([], dts)
    | c :: cols' =>
        match orig c with
        | None => Err KeyError
        | Some dt =>
            if negb (is_vector dt) then
              match expand_cols0 orig (upd dts c dt) cols' with
              | Err e => Err e
              | Ok (cs, d) => Ok (c :: cs, d)
              end
            else
              match get_expanded_cols c dt with
              | Err e => Err e
              | Ok (ecols, edt) =>
                  let dts1 := fold_left (fun d k => upd d k edt) ecols dts in
                  match expand_cols0 orig (upd dts1 c dt) cols' with
                  | Err e => Err e
                  | Ok (cs, d) => Ok (ecols ++ cs, d)
                  end
              end
        end
    end.

  (** sql_wrapper_session.py:518-526 [_do_db_insert]: the scalar columns and values
      that are handed to the database. *)
  Definition inserted (dts : dict) (cols : list str) (vals : list (nd A))
    : res (list str * list (nd A)) :=
    match expand_cols dts dts cols vals with
    | Err e => Err e
    | Ok (cs, d, vs) =>
        rmap (fun ws => (cs, ws))
             (mapM (fun '(c, v) => convert_from v (match d c with Some dt => dt | None => None end))
                   (combine cs vs))
    end.

  (** One table of a query: its expanded columns and datatypes, sql_util.py:19-32,
      58-71 (the aliases are distinct, so a query is the list of its tables). *)
  Definition qtable := (list str * dict)%type.
  Definition query_table (dts : dict) (cols : list str) : res qtable := expand_cols0 dts dts cols.

  (** [query.columns], each with the datatypes of its table. *)
  Definition query_columns (q : list qtable) : list (str * dict) :=
    flat_map (fun t => map (fun c => (c, snd t)) (fst t)) q.

  (** sql_util.py:447-463 [convert_values] *)
  Definition convert_values (q : list (str * dict)) (row : list (nd A)) : res (list (nd A)) :=
    mapM (fun '(v, (c, d)) => match d c with
                              | None => Err KeyError
                              | Some dt => convert_to v dt
                              end) (combine row q).

  (** sql_util.py:420-444 [handle_vector_item]: the datatype of the vector if the
      column belongs to the current vector. *)
  Definition handle_vector_item (c : str) (d : dict) (temp : list (nd A))
    : res (option (option str)) :=
    let suffix := lit "___" ++ dec (N.of_nat (List.length temp)) in
    if endswith suffix c then
      match d (before_suffix suffix c) with
      | None => Err KeyError
      | Some dt => Ok (Some dt)
      end
    else Ok None.

  (** sql_util.py:343-372, the loop of [contract_vector_values] for one row.
      [acc] = contracted_row, [temp] = temp_vec, [vd] = vector_datatype. *)
  Fixpoint contract_row (q : list (str * dict)) (row : list (nd A))
      (acc temp : list (nd A)) (vd : option str) : res (list (nd A)) :=
    let flush := match temp with
                 | [] => Ok acc
                 | _ => rmap (fun v => acc ++ [v]) (convert_to (Nest temp) vd)
                 end in
    match q, row with
    | (c, d) :: q', v :: row' =>
        match handle_vector_item c d temp with
        | Err e => Err e
        | Ok (Some dt) => contract_row q' row' acc (temp ++ [v]) dt
        | Ok None =>
            match flush with
            | Err e => Err e
            | Ok acc' =>
                match handle_vector_item c d [] with
                | Err e => Err e
                | Ok (Some dt) => contract_row q' row' acc' [v] dt
                | Ok None => contract_row q' row' (acc' ++ [v]) [] vd
                end
            end
        end
    | _, _ => flush
    end.

  (** sql_util.py:323-368 [contract_vector_values] for one row. *)
  Definition contract_vector_values (q : list qtable) (row : list (nd A)) : res (list (nd A)) :=
    match convert_values (query_columns q) row with
    | Err e => Err e
    | Ok vals => contract_row (query_columns q) vals [] [] None
    end.

  (** ** Conditions *)

  (** sql_util.py:74-169.  The set of conditions of an AndCondition is a list: any
      enumeration of it. *)
  Inductive cond :=
  | CEq (t c : str) (v : nd A) (dt : option str)
  | CJoin (t1 c1 t2 c2 : str)
  | CAnd (l : list cond).

  Fixpoint cond_rect' (P : cond -> Prop) (HE : forall t c v dt, P (CEq t c v dt))
      (HJ : forall t1 c1 t2 c2, P (CJoin t1 c1 t2 c2))
      (HA : forall l, Forall P l -> P (CAnd l)) (x : cond) : P x :=
    match x with
    | CEq t c v dt => HE t c v dt
    | CJoin t1 c1 t2 c2 => HJ t1 c1 t2 c2
    | CAnd l => HA l ((fix go l := match l return Forall P l with
                                   | [] => Forall_nil P
                                   | y :: r => Forall_cons y (cond_rect' P HE HJ HA y) (go r)
                                   end) l)
    end.

  (** sql_util.py:80-93 [EqualsCondition.__init__] *)
  Definition mk_equals (t c : str) (v : nd A) (dt : option str) : res cond :=
    rmap (fun w => CEq t c w dt) (convert_from v dt).

  (** sql_util.py:376-393 [expand_vector_condition].  A condition without datatype
      (None.startswith) raises. *)
  Fixpoint expand_condition (x : cond) : res cond :=
    match x with
    | CEq t c v dt =>
        match dt with
        | None => Err AttributeError
        | Some i =>
            if startswith VEC_PREFIX i then
              match get_expanded_cols c dt with
              | Err e => Err e
              | Ok (ecols, edt) =>
                  rmap CAnd (mapM (fun '(ec, ev) => mk_equals t ec ev edt)
                                  (combine ecols (items v)))
              end
            else Ok x
        end
    | CJoin _ _ _ _ => Ok x
    | CAnd l => rmap CAnd ((fix go l := match l with
                                        | [] => Ok []
                                        | y :: r => match expand_condition y with
                                                    | Err e => Err e
                                                    | Ok y' => match go r with
                                                               | Err e => Err e
                                                               | Ok r' => Ok (y' :: r')
                                                               end
                                                    end
                                        end) l)
    end.

  (** An SQL condition text: comparisons joined by AND; "1" is [PTrue]. *)
  Inductive patom :=
  | PTrue
  | PEq (t c : str) (param : str)            (* `t`.`c`=:param *)
  | PJoin (t1 c1 t2 c2 : str).

  (** A parameter dictionary; [values.update(sub)]: entries of [sub] win. *)
  Definition params := list (str * nd A).
  Fixpoint plookup (ps : params) (k : str) : option (nd A) :=
    match ps with
    | [] => None
    | (k', v) :: ps' => match plookup ps' k with
                        | Some w => Some w
                        | None => if str_eqb k k' then Some v else None
                        end
    end.

  (** sqlite_session.py:172-219 [_get_condition_pattern]; later entries of the list
      override earlier ones. *)
  Fixpoint get_condition_pattern (x : cond) (prefix : str) : list patom * params :=
    match x with
    | CEq t c v _ => ([PEq t c (prefix ++ lit "_value")], [(prefix ++ lit "_value", v)])
    | CJoin t1 c1 t2 c2 => ([PJoin t1 c1 t2 c2], [])
    | CAnd [] => ([PTrue], [])
    | CAnd l =>
        (fix go (i : N) l :=
           match l with
           | [] => ([], [])
           | y :: r =>
               let '(p, vs) := get_condition_pattern y (prefix ++ dec i) in
               let '(ps, vss) := go (i + 1)%N r in
               (p ++ ps, vs ++ vss)
           end) 0%N l
    end.

  (** sqlite_session.py:55-75 [_sql_list_pattern]: the placeholders and the values. *)
  Definition sql_list_pattern (prefix : str) (vals : list (nd A)) : list str * params :=
    let name i := prefix ++ lit "_" ++ dec i in
    (map name (range (List.length vals)),
     combine (map name (range (List.length vals))) vals).
End Vectors.
Arguments cond : clear implicits.
Arguments params : clear implicits.
