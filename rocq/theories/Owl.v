(** The parser of ontology files: osp/core/ontology/parser.py, above all the
    installation of OWL ontologies described by a YAML document.

    The document is a tree of Validator.v, the graph that of Onto.v and the prefix
    bindings those of Namespace.v, as in Yml.v.  [source p fmt] is what rdflib reads
    from the file or URL p in the format fmt: a graph whose k blank nodes are
    numbered below k, or an exception.  [pystr] is str() of a list or dictionary.

    Simplifications: log messages (and [_check_namespaces], which only logs) are
    dropped; a failing download is a failure of [source]; a namespace name that is
    not a string is outside the model, which answers TypeError. *)
From stdpp Require Import base list gmap countable.
From Coq Require Import String.
From Verif Require Import Prelude Utf8 Text Names Onto OClass Yml.
From Verif Require Validator Namespace.
Local Open Scope N_scope.
Local Open Scope list_scope.

(** the Python exception SyntaxError *)
Definition SyntaxError : exn := OtherError 4.

(** substring test *)
Fixpoint infix (p s : str) : bool :=
  startswith p s || match s with [] => false | _ :: s' => infix p s' end.

Definition is_str (k : str) (y : yaml) : bool :=
  match y with YS (SStr s) => str_eqb k s | _ => false end.
Definition is_key (k : str) (x : scalar) : bool :=
  match x with SStr s => str_eqb k s | _ => false end.

(** Python's [k in y] for a string k *)
Definition contains (k : str) (y : yaml) : res bool :=
  match y with
  | YDict l => Ok (existsb (fun kv => is_key k (fst kv)) l)
  | YList l => Ok (existsb (is_str k) l)
  | YS (SStr s) => Ok (infix k s)
  | YS _ => Err TypeError
  end.
(** [a in y and b in y] *)
Definition contains_both (a b : str) (y : yaml) : res bool :=
  match contains a y with
  | Ok true => contains b y
  | r => r
  end.

(** yml_parser.py:47-56 [is_yaml_ontology] *)
Definition is_yaml_ontology (y : yaml) : res bool := contains_both (lit "ontology") (lit "namespace") y.
(** parser.py:57, 114, 138 *)
Definition is_owl (y : yaml) : res bool := contains_both (lit "ontology_file") (lit "identifier") y.

(** parser.py:14-27 ALL_KEYS, without "file": that key clashes with the argument
    file=f of parser.py:60 (TypeError). *)
Definition all_keys : list str :=
  map lit ["ontology_file"; "namespaces"; "active_relationships"; "default_relationship"; "identifier";
           "format"; "reference_by_label"]%string.

(** parser.py:243-258: keyword arguments are strings, "namespaces" is there, no
    unknown keys; :262 the identifier is hashable.  All failures are TypeErrors. *)
Definition keys_ok (d : fields) : bool :=
  forallb (fun kv : scalar * yaml =>
    match fst kv with SStr k => existsb (str_eqb k) all_keys | _ => false end) d &&
  bool_decide (is_Some (get "namespaces" d)) &&
  match get "identifier" d with Some (YS _) => true | _ => false end.

(** parser.py:272-275 *)
Definition norm_iri (i : str) : str :=
  if endswith (lit "#") i || endswith (lit "/") i then i else i ++ lit "#".

(** blank nodes of a file are new nodes *)
Definition rename_term (n : N) (t : term) : term := match t with BN i => BN (n + i) | t => t end.
Definition rename_triple (n : N) (t : otriple) : otriple :=
  let '(s, p, o) := t in (rename_term n s, p, rename_term n o).
Definition rename (n : N) (g : ograph) : ograph := set_map (rename_triple n) g.

Section Owl.
  Variable num : str -> N.
  Variable ltrue : N.
  Variable pystr : yaml -> str.
  Variable source : str -> yaml -> res (N * ograph).
  Notation I s := (IRI (num s)).

  Definition active_rel : str := lit "http://www.osp-core.com/cuba#activeRelationship".

  (** rdflib.URIRef(y): the check for invalid characters refuses what is not iterable *)
  Definition uriref (y : yaml) : res str :=
    match y with
    | YS (SStr s) => Ok s
    | YS _ => Err TypeError
    | y => Ok (pystr y)
    end.

  (** parser.py:271-281: the loop over the namespaces; the result are their IRIs *)
  Fixpoint bind_all (items : list (scalar * yaml)) (st : Namespace.store) : Namespace.store * res (list str) :=
    match items with
    | [] => (st, Ok [])
    | (n, YS (SStr i)) :: items' =>
        match n with
        | SStr n =>
            let '(st', r) := bind_all items' (Namespace.ns_bind n (norm_iri i) st) in
            (st', rmap (cons (norm_iri i)) r)
        | _ => (st, Err TypeError)
        end
    | _ => (st, Err AttributeError)                    (* iri.endswith *)
    end.

  (** [for rel in active_rels]: a text is a sequence of its characters *)
  Definition iterate (y : yaml) : res (list yaml) :=
    match y with
    | YList l => Ok l
    | YDict l => Ok (map (fun kv => YS (fst kv)) l)
    | YS (SStr s) => Ok (map (fun c => YS (SStr [c])) s)
    | YS _ => Err TypeError
    end.

  (** parser.py:306-323 [_add_cuba_triples] *)
  Fixpoint add_active (rels : list yaml) (g : ograph) : ograph * option exn :=
    match rels with
    | [] => (g, None)
    | y :: rels' =>
        match uriref y with
        | Err e => (g, Some e)
        | Ok r =>
            if decide ((I r, p_type, owl_ObjectProperty) ∈ g)
            then add_active rels' ({[ (I r, p_subPropertyOf, I active_rel) ]} ∪ g)
            else (g, Some ValueError)
        end
    end.

  (** parser.py:288-304 [_add_default_rel_triples] *)
  Definition add_default (iris : list str) (default_rel : option yaml) (g : ograph) : ograph * option exn :=
    match default_rel with
    | None | Some (YS Validator.SNone) => (g, None)
    | Some y =>
        match iris with
        | [] => (g, None)
        | _ => match uriref y with
               | Err e => (g, Some e)
               | Ok r => (list_to_set (map (fun i => (I i, p_default_rel, I r)) iris) ∪ g, None)
               end
        end
    end.

  (** parser.py:325-341 [_add_reference_style_triples] *)
  Definition add_styles (iris : list str) (by_label : bool) (g : ograph) : ograph :=
    if by_label then list_to_set (map (fun i => (I i, p_reference_by_label, LIT ltrue)) iris) ∪ g else g.

  (** parser.py:237-286 [_parse_rdf] after the checks of the keys *)
  Definition parse_rdf (d : fields) (p : str) (st : Namespace.store) (s : pst) : Namespace.store * (pst * res unit) :=
    match source p (default (YS (SStr (lit "xml"))) (get "format" d)) with
    | Err e => (st, (s, Err e))
    | Ok (k, g) =>
        let g1 := rename (p_next s) g ∪ p_graph s in
        let fin (g : ograph) (r : res unit) := (Pst g (p_next s + k), r) in
        match get "namespaces" d with
        | Some (YDict items) =>
            match bind_all items st with
            | (st', Err e) => (st', fin g1 (Err e))
            | (st', Ok iris) =>
                (st',
                 match iterate (default (YList []) (get "active_relationships" d)) with
                 | Err e => fin g1 (Err e)
                 | Ok rels =>
                     match add_active rels g1 with
                     | (g2, Some e) => fin g2 (Err e)
                     | (g2, None) =>
                         match add_default iris (get "default_relationship" d) g2 with
                         | (g3, Some e) => fin g3 (Err e)
                         | (g3, None) =>
                             fin (add_styles iris (match get "reference_by_label" d with Some y => truthy y | None => false end) g3)
                                 (Ok tt)
                         end
                     end
                 end)
            end
        | _ => (st, fin g1 (Err AttributeError))          (* namespaces.items() *)
        end
    end.

  (** parser.py:201-235 [_parse_yml], :59-60, :237-258 *)
  Definition parse_owl (y : yaml) (st : Namespace.store) (s : pst) : Namespace.store * (pst * res unit) :=
    match y with
    | YDict d =>
        match get "identifier" d, get "ontology_file" d with
        | Some i, Some f =>
            match contains (lit ".") i with
            | Err e => (st, (s, Err e))
            | Ok true => (st, (s, Err ValueError))
            | Ok false =>
                match f with
                | YS (SStr p) => if keys_ok d then parse_rdf d p st s else (st, (s, Err TypeError))
                | _ => (st, (s, Err AttributeError))       (* startswith *)
                end
            end
        | _, _ => (st, (s, Err KeyError))                  (* not reached: is_owl *)
        end
    | _ => (st, (s, Err TypeError))                        (* y["identifier"] *)
    end.
End Owl.

(** parser.py:43-67 [parse] of a loaded file; yml_parser.py:45 the binding of owl *)
Definition owl_iri : str := lit "http://www.w3.org/2002/07/owl#".
Definition parse_file num text len lval ltrue lone pick installed pystr source (fuel : nat) (y : yaml)
  (st : Namespace.store) (s : pst) : Namespace.store * (pst * res unit) :=
  match y with
  | YS Validator.SNone => (st, (s, Err SyntaxError))
  | _ =>
      match is_yaml_ontology y with
      | Err e => (st, (s, Err e))
      | Ok true => parse num text len lval ltrue lone pick installed fuel
                     (Namespace.ns_bind (lit "owl") owl_iri st) y s
      | Ok false =>
          match is_owl y with
          | Err e => (st, (s, Err e))
          | Ok true => parse_owl num ltrue pystr source y st s
          | Ok false => (st, (s, Err SyntaxError))
          end
      end
  end.

(** parser.py:92-120 [get_identifier] of a loaded document; :105 None *)
Definition get_identifier (y : yaml) : res str :=
  let lower_of (k : string) :=
    match y with
    | YDict d => match get k d with
                 | Some (YS (SStr n)) => Ok (lower n)
                 | Some _ => Err AttributeError
                 | None => Err KeyError
                 end
    | _ => Err TypeError
    end in
  match is_yaml_ontology y with
  | Err e => Err e
  | Ok true => lower_of "namespace"%string
  | Ok false => match is_owl y with
                | Err e => Err e
                | Ok true => lower_of "identifier"%string
                | Ok false => Err SyntaxError
                end
  end.

(** parser.py:122-143 [get_namespace_names] of a loaded document *)
Definition get_namespace_names (y : yaml) : res (list str) :=
  match is_yaml_ontology y with
  | Err e => Err e
  | Ok true => rmap (fun n => [n]) (get_identifier y)
  | Ok false =>
      match is_owl y with
      | Err e => Err e
      | Ok false => Err SyntaxError
      | Ok true =>
          match y with
          | YDict d =>
              match get "namespaces" d with
              | Some (YDict items) =>
                  Prelude.mapM (fun kv : scalar * yaml =>
                    match fst kv with SStr n => Ok (lower n) | _ => Err AttributeError end) items
              | Some _ => Err AttributeError
              | None => Err KeyError
              end
          | _ => Err TypeError
          end
      end
  end.

(** parser.py:145-172 [get_requirements] of a loaded document: the elements of
    the set.  Simplification: requirements that are not strings are dropped. *)
Definition get_requirements (y : yaml) : res (list str) :=
  match contains (lit "requirements") y with
  | Err e => Err e
  | Ok false => Ok []
  | Ok true =>
      match y with
      | YDict d =>
          match get "requirements" d with
          | Some (YList l) => Ok (strings l)
          | _ => match get_identifier y with Err e => Err e | Ok _ => Err ValueError end
          end
      | _ => Err TypeError
      end
  end.

(** namespace.py:73-81 [get_default_rel] of the namespace with IRI i: the last
    one found.  [enum] are the triples in the order of rdflib.  Simplification: the
    IRI is returned, not the entity (C43); the result that the namespace object
    remembers is not modelled. *)
Definition get_default_rel (enum : list otriple) (i : term) : option term :=
  foldl (fun acc t => let '(s, p, o) := t in
           if decide (s = i /\ p = p_default_rel) then Some o else acc) None enum.
