(** Attributes of ontology classes and the arguments of their constructors:
    osp/core/ontology/oclass.py:32-205, attribute.py:31-67,
    yml/yml_parser.py:386-422 [_add_attribute].

    The graph is that of Onto.v.  [enum] is the order in which rdflib enumerates
    the triples that match a pattern: any order.
    Simplifications: an attribute is identified with its IRI (entity.py:44-53
    [__eq__], [__hash__]); an IRI that is a DatatypeProperty and has a second OWL
    type is read as an attribute; values are opaque. *)
From stdpp Require Import base list gmap countable.
From Verif Require Import Prelude Onto.
Local Open Scope N_scope.

Definition p_domain := 6.
Definition p_onProperty := 7.
Definition p_someValuesFrom := 8.
Definition p_allValuesFrom := 9.
Definition p_default := 30.
Definition p_default_attribute := 31.
Definition p_default_value := 32.
Definition p_range := 33.
Definition p_cardinality := 34.
Definition owl_Restriction := IRI 21.
Definition rdfs_Literal := IRI 22.

(** A Python dictionary in insertion order. *)
Fixpoint dset {A} (d : list (term * A)) (k : term) (v : A) : list (term * A) :=
  match d with
  | [] => [(k, v)]
  | (k', v') :: d' => if decide (k' = k) then (k', v) :: d' else (k', v') :: dset d' k v
  end.
Fixpoint dget {A} (d : list (term * A)) (k : term) : option A :=
  match d with
  | [] => None
  | (k', v') :: d' => if decide (k' = k) then Some v' else dget d' k
  end.

(** default, obligatory, datatype (oclass.py:43, 81, 97) *)
Record ainfo := Info { i_default : option term; i_obl : bool; i_dt : option term }.
Definition adict := list (term * ainfo).

Section Model.
  Variable g : ograph.
  Variable enum : pattern -> list otriple.
  Variable truthy : term -> bool.   (* bool(node): rdflib literals can be falsy *)

  Definition isDP (a : term) : bool := bool_decide ((a, p_type, owl_DatatypeProperty) ∈ g).

  (** rdflib Graph.value(s, p): any object *)
  Definition gvalue (s : term) (p : N) : option term :=
    match enum (Some s, p, None) with (_, _, o) :: _ => Some o | [] => None end.

  (** Python [x or y] *)
  Definition py_or (x y : option term) : option term :=
    match x with Some t => if truthy t then x else y | None => y end.

  (** oclass.py:109-125 [_get_default] *)
  Fixpoint find_default (a : term) (ts : list otriple) : option term :=
    match ts with
    | [] => None
    | (_, _, b) :: ts' => if decide ((b, p_default_attribute, a) ∈ g) then gvalue b p_default_value
                          else find_default a ts'
    end.
  Definition get_default (a c : term) : option term :=
    find_default a (enum (Some c, p_default, None)).

  (** oclass.py:97-107 [_get_datatype_for_restriction].  (r, owl:cardinality) != 0
      compares a tuple with a number, so the second component is always True. *)
  Definition restriction_datatype (r : term) : option term * bool :=
    (py_or (gvalue r p_someValuesFrom) (gvalue r p_allValuesFrom), true).

  (** oclass.py:70-81, case 1 *)
  Definition case1_step (c : term) (acc : res adict) (t : otriple) : res adict :=
    match acc with
    | Err e => Err e
    | Ok d =>
        let a := fst (fst t) in
        if negb (isDP a) || is_bnode a || bool_decide (a = owl_topDataProperty \/ a = owl_bottomDataProperty)
        then Ok d
        else match a with
             | IRI _ => Ok (dset d a (Info (get_default a c) false None))
             | _ => Err KeyError
             end
    end.

  (** oclass.py:83-97, case 2.  A restriction without owl:onProperty: (None, ...) in
      graph matches any attribute, then from_iri(None) raises. *)
  Definition case2_step (c : term) (acc : res adict) (t : otriple) : res adict :=
    match acc with
    | Err e => Err e
    | Ok d =>
        let o := snd t in
        if negb (bool_decide ((o, p_type, owl_Restriction) ∈ g)) then Ok d
        else match gvalue o p_onProperty with
             | None => match enum (None, p_type, Some owl_DatatypeProperty) with
                       | [] => Ok d
                       | _ => Err TypeError
                       end
             | Some a =>
                 if negb (isDP a) || is_bnode a then Ok d
                 else match a with
                      | IRI _ =>
                          let '(dt, obl) := restriction_datatype o in
                          let dflt := get_default a c in
                          Ok (dset d a (Info dflt (bool_decide (dflt = None) && obl) dt))
                      | _ => Err KeyError
                      end
             end
    end.

  (** oclass.py:55-95 [_get_attributes] *)
  Definition get_attributes (c : term) : res adict :=
    foldl (case2_step c) (foldl (case1_step c) (Ok []) (enum (None, p_domain, Some c)))
      (enum (Some c, p_subClassOf, None)).

  (** oclass.py:40-44: one superclass's attributes are merged into the result *)
  Definition merge1 (d : adict) (av : term * ainfo) : adict :=
    let '(a, v) := av in
    let x := default (Info None false None) (dget d a) in
    dset d a (Info (py_or (i_default x) (i_default v)) (i_obl x || i_obl v) (py_or (i_dt x) (i_dt v))).
  Fixpoint merge_all (d : adict) (cs : list term) : res adict :=
    match cs with
    | [] => Ok d
    | c :: cs' => match get_attributes c with
                  | Err e => Err e
                  | Ok own => merge_all (foldl merge1 d own) cs'
                  end
    end.

  (** oclass.py:32-45 [attributes]; supers is the set of superclasses in Python's
      iteration order. *)
  Definition attributes (supers : list term) : res adict := merge_all [] supers.

  (** ** Arguments *)
  Variable V : Type.
  Variable argname : term -> N.   (* attribute.py:31-38 *)
  Variable lower : N -> N.        (* str.lower *)

  Inductive aval := Given (v : V) | Dflt (t : term).

  (** oclass.py:175-200, the loop of [_get_attributes_values] *)
  Fixpoint take_values (force : bool) (attrs : adict) (kw : gmap N V) : res (list (term * aval) * gmap N V) :=
    match attrs with
    | [] => Ok ([], kw)
    | (a, i) :: attrs' =>
        let next v kw' := match take_values force attrs' kw' with
                          | Ok (r, k) => Ok (v ++ r, k)
                          | Err e => Err e
                          end in
        match kw !! argname a with
        | Some v => next [(a, Given v)] (delete (argname a) kw)
        | None =>
            match kw !! lower (argname a) with
            | Some v => next [(a, Given v)] (delete (lower (argname a)) kw)
            | None => if negb force && i_obl i then Err TypeError
                      else match i_default i with
                           | Some t => next [(a, Dflt t)] kw
                           | None => next [] kw
                           end
            end
        end
    end.

  (** oclass.py:151-195 [_get_attributes_values] *)
  Definition attributes_values (force : bool) (attrs : adict) (kw : gmap N V) : res (list (term * aval)) :=
    match take_values force attrs kw with
    | Err e => Err e
    | Ok (r, rest) => if negb force && bool_decide (rest <> ∅) then Err TypeError else Ok r
    end.

  (** oclass.py:127-149 [get_attribute_by_argname] *)
  Fixpoint by_argname (attrs : adict) (n : N) : option term :=
    match attrs with
    | [] => None
    | (a, _) :: attrs' => if decide (argname a = n) then Some a
                          else if decide (lower (argname a) = n) then Some a
                          else by_argname attrs' n
    end.

  (** oclass.py:217-252 [__call__] up to the construction; isW and isN tell that the
      class is a subclass of cuba.Wrapper and cuba.Nothing. *)
  Definition call_class (isW isN : bool) (session : bool) (force : bool) (supers : list term) (kw : gmap N V)
    : res (list (term * aval)) :=
    if isW && negb session then Err TypeError
    else if isN then Err TypeError
    else match attributes supers with
         | Err e => Err e
         | Ok d => attributes_values force d kw
         end.

  (** attribute.py:40-64 [datatype]; supers is the set of superproperties *)
  Definition ranges (supers : list term) : gset term :=
    list_to_set (filter (fun o => o <> rdfs_Literal)
      (mjoin (map (fun s => map snd (enum (Some s, p_range, None))) supers))).
  Definition datatype (supers : list term) : res (option term) :=
    match elements (ranges supers) with
    | [] => Ok None
    | [d] => Ok (Some d)
    | _ => Err RuntimeError
    end.
End Model.
Arguments Given {V}. Arguments Dflt {V}.

(** yml_parser.py:386-422 [_add_attribute]; b1 and b2 are the new blank nodes. *)
Definition add_attribute (g : ograph) (c a : term) (dflt : option term) (b1 b2 one : term) : ograph :=
  g ∪ {[ (c, p_subClassOf, b1); (b1, p_type, owl_Restriction); (b1, p_cardinality, one);
         (b1, p_onProperty, a) ]} ∪
  match dflt with
  | None => ∅
  | Some v => {[ (c, p_default, b2); (b2, p_default_attribute, a); (b2, p_default_value, v) ]}
  end.
