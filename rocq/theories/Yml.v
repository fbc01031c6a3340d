(** The parser of YAML ontologies: osp/core/ontology/yml/yml_parser.py.

    The document is a tree of Validator.v, the graph that of Onto.v, the prefix
    bindings those of Namespace.v.  IRIs are strings; [num] is the number that
    stands for an IRI in the graph and [text] the IRI of a number.  [len s] is the
    literal s@en, [lval v] the literal of a default value, [ltrue] and [lone] the
    literals true and 1.  [pick] is the element that rdflib enumerates first,
    [installed ns n] tells whether the installed namespace ns has an entity n.

    Simplifications: log messages are dropped; entity names of a document that are
    not strings (a YAML document may use true, null or .nan as a key) are outside
    the model, which answers TypeError at once; [str.lower] is that of Names.v. *)
From stdpp Require Import base list gmap countable.
From Coq Require Import String.
From Verif Require Import Prelude Utf8 Text Names Onto OClass.
From Verif Require Validator Namespace Datatype.
Local Open Scope N_scope.
Local Open Scope list_scope.

Notation yaml := Validator.yaml.
Notation YS := Validator.YS.
Notation YList := Validator.YList.
Notation YDict := Validator.YDict.
Notation SStr := Validator.SStr.
Notation scalar := Validator.scalar.

Definition p_isDefinedBy := 35.
Definition p_default_rel := 36.
Definition p_reference_by_label := 37.
Definition owl_FunctionalProperty := IRI 23.
Definition rdfs_Datatype := IRI 24.

(** ** Access to the document *)
Definition fields := list (scalar * yaml).
Definition get (k : string) (f : fields) : option yaml := Validator.lookup (lit k) f.

(** [x for x in l if isinstance(x, str)] *)
Definition strings (l : list yaml) : list str :=
  omap (fun y => match y with YS (SStr s) => Some s | _ => None end) l.
Definition f_supers (f : fields) : list str :=
  match get "subclass_of" f with Some (YList l) => strings l | _ => [] end.
Definition f_str (k : string) (f : fields) : option str :=
  match get k f with Some (YS (SStr s)) => Some s | _ => None end.
(** Python's truth value *)
Definition truthy (y : yaml) : bool :=
  match y with
  | YS Validator.SNone | YS (SStr []) | YList [] | YDict [] => false
  | YS (Validator.SBool b) => b
  | YS (Validator.SInt z) => negb (z =? 0)%Z
  | YS (Validator.SFloat _ (Some b)) => b
  | _ => true
  end.
Definition f_default_rel (f : fields) : option bool := truthy <$> get "default_rel" f.
(** attributes: name and default value; a null value is None *)
Definition f_attributes (f : fields) : list (str * option yaml) :=
  match get "attributes" f with
  | Some (YDict l) =>
      omap (fun kv => match kv with
                      | (SStr k, YS Validator.SNone) => Some (k, None)
                      | (SStr k, v) => Some (k, Some v)
                      | _ => None
                      end) l
  | _ => []
  end.

(** self._ontology_doc as a list of named entities *)
Definition entities (y : yaml) : option (list (str * fields)) :=
  match y with
  | YDict l => stdpp.list.mapM (fun kv => match kv with (SStr k, YDict f) => Some (k, f) | _ => None end) l
  | _ => None
  end.

(** yml_parser.py:124-142 [split_name] *)
Definition split_name (w : str) : res (str * str) :=
  match split_on 46 w with
  | [a; b] => Ok (lower a, b)
  | _ => Err ValueError
  end.

(** ** State and exceptions: an exception keeps the triples added so far *)
Record pst := Pst { p_graph : ograph; p_next : N }.
Definition M (A : Type) := pst -> pst * res A.
Definition ret {A} (a : A) : M A := fun s => (s, Ok a).
Definition raise {A} (e : exn) : M A := fun s => (s, Err e).
Definition mbind {A B} (m : M A) (k : A -> M B) : M B :=
  fun s => match m s with (s', Ok a) => k a s' | (s', Err e) => (s', Err e) end.
Definition lift {A} (f : ograph -> res A) : M A := fun s => (s, f (p_graph s)).
Definition add (t : otriple) : M unit := fun s => (Pst ({[t]} ∪ p_graph s) (p_next s), Ok tt).
Definition add_all (ts : gset otriple) : M unit := fun s => (Pst (ts ∪ p_graph s) (p_next s), Ok tt).
(** rdflib.BNode() *)
Definition fresh_bnode : M term := fun s => (Pst (p_graph s) (N.succ (p_next s)), Ok (BN (p_next s))).
Fixpoint for_each {A B} (f : A -> M B) (l : list A) : M (list B) :=
  match l with
  | [] => ret []
  | x :: l' => mbind (f x) (fun y => mbind (for_each f l') (fun ys => ret (y :: ys)))
  end.

Inductive ekind := KClass | KRel | KAttr.
Global Instance ekind_eq_dec : EqDecision ekind.
Proof. solve_decision. Defined.

(** yml_parser.py:310-312 *)
Definition owl_types : gset term :=
  {[ owl_Class; owl_ObjectProperty; owl_DatatypeProperty; owl_FunctionalProperty ]}.

Section Parser.
  Variable num : str -> N.
  Variable text : N -> str.
  Variable len : str -> N.
  Variable lval : yaml -> N.
  Variable ltrue lone : N.
  Variable pick : gset N -> N.
  Variable installed : str -> str -> bool.

  Notation I s := (IRI (num s)).

  (** the bindings of the graph, the namespace of the document and its entities *)
  Variable b : Namespace.bindings.
  Variable own : str.
  Variable es : list (str * fields).

  (** yml_parser.py:189-195 *)
  Definition ns_iri (ns : str) : str :=
    match assoc ns b with
    | Some i => i
    | None => lit "http://www.osp-core.com/" ++ ns ++ lit "#"
    end.

  (** yml_parser.py:204-208: the subjects with this label in the namespace *)
  Definition labelled (g : ograph) (i name : str) : gset N :=
    list_to_set (omap (fun t : otriple =>
      match t with
      | (IRI n, p, o) => if decide (p = p_prefLabel /\ o = LIT (len name) /\ startswith i (text n) = true)
                         then Some n else None
      | _ => None
      end) (elements g)).

  (** yml_parser.py:200-210 *)
  Definition candidate (g : ograph) (ns name : str) : str :=
    let i := ns_iri ns in
    if decide ((I i, p_reference_by_label, LIT ltrue) ∈ g) then
      let c := labelled g i name in
      if decide (c = ∅) then i ++ name else text (pick c)
    else i ++ name.

  (** (iri, None, None) in graph *)
  Definition is_subject (g : ograph) (i : str) : bool :=
    existsb (fun t : otriple => bool_decide (fst (fst t) = I i)) (elements g).

  (** yml_parser.py:213-219, negated *)
  Definition defined (g : ograph) (ns name : str) : bool :=
    if str_eqb ns own then bool_decide (is_Some (assoc name es))
    else is_subject g (candidate g ns name).

  (** yml_parser.py:167-270 [_get_iri], [_get_iri_case_insensitive] *)
  Definition get_iri (g : ograph) (ns name : str) : res str :=
    let ns := lower (match ns with [] => own | _ => ns end) in
    match name with
    | [] => Ok (ns_iri ns)
    | _ =>
        if defined g ns name then Ok (candidate g ns name)
        else match alt name (str_eqb ns (lit "cuba")) with
             | Err e => Err e
             | Ok None => Err AttributeError
             | Ok (Some name') =>
                 if defined g ns name' then Ok (candidate g ns name') else Err AttributeError
             end
    end.
  Definition own_iri (g : ograph) (name : str) : res str := get_iri g own name.

  (** a reference "namespace.name" *)
  Definition ref_iri (g : ograph) (w : str) : res str :=
    match split_name w with Ok (ns, n) => get_iri g ns n | Err e => Err e end.

  (** yml_parser.py:308-313: the types of one entity *)
  Definition types_of (g : ograph) (i : str) : gset term :=
    filter (fun t => (I i, p_type, t) ∈ g) owl_types.

  (** yml_parser.py:303-318, the loop of [_add_type_triple].  The queue is a stack:
      its end (where pop() takes and += adds) is the head of the list. *)
  Fixpoint types_loop (fuel : nat) (g : ograph) (queue : list (str * str)) (types : gset term)
    : res (gset term) :=
    match queue with
    | [] => Ok types
    | (ns, name) :: queue' =>
        match fuel with
        | 0%nat => Err OutOfFuel
        | S fuel' =>
            match get_iri g ns name with
            | Err e => Err e
            | Ok i =>
                let types' := types ∪ types_of g i in
                if str_eqb ns own then
                  match assoc name es with
                  | None => Err KeyError
                  | Some f =>
                      match Prelude.mapM split_name (f_supers f) with
                      | Err e => Err e
                      | Ok qs => types_loop fuel' g (rev qs ++ queue') types'
                      end
                  end
                else types_loop fuel' g queue' types'
            end
        end
    end.

  (** yml_parser.py:291-322 [_add_type_triple] *)
  Definition add_type_triple (fuel : nat) (name i : str) : M unit :=
    mbind (lift (fun g => types_loop fuel g [(own, name)] ∅)) (fun types =>
    if decide (types = ∅) then raise ValueError
    else add_all (set_map (fun t => (I i, p_type, t)) types)).

  (** yml_parser.py:272-289 [_add_superclass], for a reference *)
  Definition add_superclass (i : str) (w : str) : M unit :=
    mbind (lift (fun g => ref_iri g w)) (fun j s =>
      let p := if decide ((I i, p_type, owl_Class) ∈ p_graph s) then p_subClassOf else p_subPropertyOf in
      add (I i, p, I j) s).

  (** yml_parser.py:144-165 [_load_entity] *)
  Definition load_entity (fuel : nat) (name : str) (f : fields) : M unit :=
    mbind (lift (fun g => own_iri g name)) (fun i =>
    mbind (match f_str "description" f with
           | Some d => add (I i, p_isDefinedBy, LIT (len d))
           | None => ret tt
           end) (fun _ =>
    mbind (add (I i, p_prefLabel, LIT (len name))) (fun _ =>
    mbind (add_type_triple fuel name i) (fun _ =>
    mbind (for_each (add_superclass i) (f_supers f)) (fun _ => ret tt))))).

  Definition def_format (k : ekind) : Validator.fname :=
    match k with KClass => Validator.FClassDef | KRel => Validator.FRelDef | KAttr => Validator.FAttrDef end.
  Definition valid_as (k : ekind) (f : fields) : res unit :=
    Validator.validate (Validator.enough (YDict f)) (YDict f) (Validator.PName (def_format k)).

  (** yml_parser.py:535-573 [_validate_entity] *)
  Definition validate_entity (name : str) (f : fields) : M ekind :=
    mbind (lift (fun g => own_iri g name)) (fun i s =>
      let g := p_graph s in
      let c := bool_decide ((I i, p_type, owl_Class) ∈ g) in
      let r := bool_decide ((I i, p_type, owl_ObjectProperty) ∈ g) in
      let a := bool_decide ((I i, p_type, owl_DatatypeProperty) ∈ g) in
      match (match c, r, a with
             | true, false, false => Some KClass
             | false, true, false => Some KRel
             | false, false, true => Some KAttr
             | _, _, _ => None
             end) with
      | None => (s, Err RuntimeError)
      | Some k => mbind (lift (fun _ => valid_as k f)) (fun _ => ret k) s
      end).

  (** yml_parser.py:452-467 [_assert_default_relationship_occurrence] *)
  Definition default_rels (d : fields) : nat :=
    (List.length (filter (fun e : str * fields => is_Some (get "default_rel" (snd e))) es) +
     match get "default_rel" d with Some _ => 1 | None => 0 end)%nat.

  (** yml_parser.py:469-497 [_check_default_rel_definition_on_ontology] *)
  Definition default_rel_of_doc (d : fields) : M unit :=
    match f_str "default_rel" d with
    | None => ret tt
    | Some w =>
        match split_on 46 w with
        | [ns; n] =>
            if installed ns n then
              mbind (lift (fun g => get_iri g ns n)) (fun j =>
              add (I (ns_iri own), p_default_rel, I j))
            else raise ValueError
        | _ => raise ValueError
        end
    end.

  (** yml_parser.py:424-450 [_set_inverse] *)
  Definition set_inverse (name : str) (f : fields) : M unit :=
    match f_str "inverse" f with
    | None => ret tt
    | Some w =>
        mbind (lift (fun g => ref_iri g w)) (fun j =>
        mbind (lift (fun g => own_iri g name)) (fun i =>
        add (I i, p_inverseOf, I j)))
    end.

  (** yml_parser.py:499-513 [_check_default_rel_flag_on_entity] *)
  Definition default_rel_flag (name : str) (f : fields) : M unit :=
    match f_default_rel f with
    | Some true =>
        mbind (lift (fun g => own_iri g name)) (fun i =>
        add (I (ns_iri own), p_default_rel, I i))
    | _ => ret tt
    end.

  (** datatypes.py:219-236, 239-263: the triple that declares a custom datatype *)
  Definition custom (dt : str) : bool :=
    startswith Datatype.STR_PREFIX dt || startswith Datatype.VEC_PREFIX dt.

  (** yml_parser.py:515-533 [_set_datatype]; rdflib refuses None as an object
      (AssertionError). *)
  Definition set_datatype (name : str) (f : fields) : M unit :=
    match f_str "datatype" f with
    | None => ret tt
    | Some w =>
        mbind (lift (fun g => own_iri g name)) (fun i =>
        match Datatype.get_rdflib_datatype w with
        | Err e => raise e
        | Ok None => raise AssertionError
        | Ok (Some dt) =>
            mbind (if custom dt then add (I dt, p_type, rdfs_Datatype) else ret tt) (fun _ =>
            add (I i, p_range, I dt))
        end)
    end.

  (** yml_parser.py:386-422 [_add_attribute] *)
  Definition add_attr (c a : str) (dflt : option yaml) : M unit :=
    mbind fresh_bnode (fun b1 =>
    mbind (add_all {[ (I c, p_subClassOf, b1); (b1, p_type, owl_Restriction);
                      (b1, p_cardinality, LIT lone); (b1, p_onProperty, I a) ]}) (fun _ =>
    match dflt with
    | None => ret tt
    | Some v => mbind fresh_bnode (fun b2 =>
        add_all {[ (I c, p_default, b2); (b2, p_default_attribute, I a);
                   (b2, p_default_value, LIT (lval v)) ]})
    end)).

  (** yml_parser.py:355-384 [_add_attributes] *)
  Definition add_attributes (name : str) (f : fields) : M unit :=
    mbind (lift (fun g => own_iri g name)) (fun c =>
    mbind (for_each (fun av : str * option yaml =>
      mbind (lift (fun g => ref_iri g (fst av))) (fun a s =>
        if decide ((I a, p_type, owl_DatatypeProperty) ∈ p_graph s) then add_attr c a (snd av) s
        else (s, Err ValueError))) (f_attributes f)) (fun _ => ret tt)).

  (** yml_parser.py:98-122 [_parse_ontology], after the binding of the namespace *)
  Definition parse_ontology (fuel : nat) (d : fields) : M unit :=
    mbind (for_each (fun e : str * fields =>
             mbind (load_entity fuel (fst e) (snd e)) (fun _ => validate_entity (fst e) (snd e))) es) (fun kinds =>
    mbind (if (1 <? default_rels d)%nat then raise ValueError else ret tt) (fun _ =>
    mbind (default_rel_of_doc d) (fun _ =>
    mbind (for_each (fun '((name, f), k) =>
             match k with
             | KRel => mbind (set_inverse name f) (fun _ => default_rel_flag name f)
             | KAttr => set_datatype name f
             | KClass => ret tt
             end) (combine es kinds)) (fun _ =>
    mbind (for_each (fun '((name, f), k) =>
             match k with
             | KClass => add_attributes name f
             | _ => ret tt
             end) (combine es kinds)) (fun _ => ret tt))))).
End Parser.

(** yml_parser.py:72-85 [parse], :102 the binding of the namespace.  The bindings
    are changed before the entities are read. *)
Definition parse num text len lval ltrue lone pick installed (fuel : nat) (st : Namespace.store) (y : yaml)
  : pst -> Namespace.store * (pst * res unit) :=
  fun s =>
  match Validator.validate (Validator.enough y) y (Validator.PName Validator.FRoot) with
  | Err e => (st, (s, Err e))
  | Ok _ =>
      match y with
      | YDict d =>
          match f_str "namespace" d, get "ontology" d with
          | Some ns, Some o =>
              match entities o with
              | Some es =>
                  let own := lower ns in
                  let st' := Namespace.ns_bind own (ns_iri (Namespace.st_ns st) own) st in
                  (st', parse_ontology num text len lval ltrue lone pick installed
                          (Namespace.st_ns st') own es fuel d s)
              | None => (st, (s, Err TypeError))
              end
          | _, _ => (st, (s, Err AttributeError))   (* namespace.lower() *)
          end
      | _ => (st, (s, Err TypeError))
      end
  end.
