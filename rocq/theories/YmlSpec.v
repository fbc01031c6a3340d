(** What a YAML ontology means: the specification for C50 and C51.  Nothing here
    refers to the parser's functions, only to the fields of the document
    (Yml.v: [f_supers], [f_str], ...), to the graph and to its vocabulary. *)
From stdpp Require Import base list gmap countable relations.
From Coq Require Import String.
From Verif Require Import Prelude Utf8 Text Names Onto OClass Yml.
From Verif Require Validator Namespace Datatype.
Local Open Scope N_scope.
Local Open Scope list_scope.

(** What the parser is told about the world: the numbers of IRIs and literals
    (see Yml.v), which of several equally labelled IRIs rdflib finds first, and
    the installed entities. *)
Record rdf := Rdf {
  r_num : str -> N; r_text : N -> str;
  r_en : str -> N; r_lit : yaml -> N; r_true : N; r_one : N;
  r_pick : gset N -> N;
  r_installed : str -> str -> bool
}.
Definition Numbers (R : rdf) : Prop :=
  (forall i, r_text R (r_num R i) = i) /\ (forall X, X <> ∅ -> r_pick R X ∈ X).
(** an IRI in the graph is one of the numbers of [r_num] *)
Definition Canonical (R : rdf) (g : ograph) : Prop :=
  forall n p o, (IRI n, p, o) ∈ g -> r_num R (r_text R n) = n.

(** The keys each kind of entity may use *)
Definition allowed (k : ekind) : list string :=
  ["description"; "subclass_of"]%string ++
  match k with
  | KClass => ["attributes"; "disjoint_with"; "equivalent_to"]
  | KRel => ["inverse"; "default_rel"; "domain"; "range"; "characteristics"]
  | KAttr => ["datatype"]
  end%string.

Definition EndsWithHashOrSlash (i : str) : Prop := exists q, i = q ++ lit "#" \/ i = q ++ lit "/".

(** An attribute of a class, with the blank nodes of its restriction and of its
    default value *)
Record slot := Slot { s_class : str; s_attr : str; s_default : option yaml; s_node : N; s_dnode : N }.
Definition nodes (e : slot) : list N :=
  s_node e :: match s_default e with Some _ => [s_dnode e] | None => [] end.

Section Spec.
  Variable R : rdf.
  Variable b : Namespace.bindings.     (* prefix -> IRI *)
  Variable g : ograph.                 (* before parsing *)
  Variable own : str.                  (* namespace of the document *)
  Variable D : gmap str fields.        (* its entities *)

  Notation iri i := (IRI (r_num R i)).

  (** ** References *)
  Definition NsIri (ns i : str) : Prop :=
    assoc ns b = Some i \/
    assoc ns b = None /\ i = lit "http://www.osp-core.com/" ++ ns ++ lit "#".
  Definition ByLabel (i : str) : Prop := (iri i, p_reference_by_label, LIT (r_true R)) ∈ g.
  Definition Labelled (i name : str) (n : N) : Prop :=
    (IRI n, p_prefLabel, LIT (r_en R name)) ∈ g /\ exists rest, r_text R n = i ++ rest.
  (** the IRI a name stands for *)
  Inductive Named (ns name : str) : str -> Prop :=
  | Named_plain i : NsIri ns i -> (ByLabel i -> forall n, ~ Labelled i name n) -> Named ns name (i ++ name)
  | Named_label i X : NsIri ns i -> ByLabel i -> X <> ∅ -> (forall n, n ∈ X <-> Labelled i name n) ->
      Named ns name (r_text R (r_pick R X)).
  Definition Known (ns name : str) : Prop :=
    (ns = own /\ is_Some (D !! name)) \/
    (ns <> own /\ exists i p o, Named ns name i /\ (iri i, p, o) ∈ g).
  (** a known name, or else its known alternative spelling *)
  Definition Refers (ns name i : str) : Prop :=
    (Known ns name /\ Named ns name i) \/
    (~ Known ns name /\ exists name', alt name (str_eqb ns (lit "cuba")) = Ok (Some name') /\
       Known ns name' /\ Named ns name' i).
  (** "Namespace.name" *)
  Definition Reference (w ns name : str) : Prop :=
    exists a, w = a ++ lit "." ++ name /\ ns = lower a /\ 46 ∉ a /\ 46 ∉ name.
  Definition RefersTo (w i : str) : Prop := exists ns name, Reference w ns name /\ Refers ns name i.

  (** ** Superclasses *)
  Definition Super (q q' : str * str) : Prop :=
    q.1 = own /\ exists f w, D !! q.2 = Some f /\ w ∈ f_supers f /\ Reference w q'.1 q'.2.
  Definition Ancestor (x : str) (q : str * str) : Prop := rtc Super (own, x) q.
  Definition Cyclic : Prop := exists q, tc Super q q.

  (** An entity has the OWL types of everything it descends from. *)
  Definition HasType (x : str) (t : term) : Prop :=
    t ∈ owl_types /\ exists q i, Ancestor x q /\ Refers q.1 q.2 i /\ (iri i, p_type, t) ∈ g.
  Definition Kind (x : str) (k : ekind) : Prop :=
    (HasType x owl_Class <-> k = KClass) /\ (HasType x owl_ObjectProperty <-> k = KRel) /\
    (HasType x owl_DatatypeProperty <-> k = KAttr).

  Definition IsAttribute (a : str) : Prop :=
    (iri a, p_type, owl_DatatypeProperty) ∈ g \/
    exists x, is_Some (D !! x) /\ Named own x a /\ HasType x owl_DatatypeProperty.
  Definition DatatypeIri (w dt : str) : Prop := Datatype.get_rdflib_datatype w = Ok (Some dt).

  (** the default relationship of a whole document, "Namespace.name" *)
  Definition DefaultRel (w i : str) : Prop :=
    exists a name, w = a ++ lit "." ++ name /\ 46 ∉ a /\ 46 ∉ name /\
      r_installed R a name = true /\ Refers (lower a) name i.

  (** ** Which documents are accepted *)
  (** every ancestor can be found; those of this namespace under their exact name *)
  Definition Resolved (x : str) : Prop := forall q, Ancestor x q ->
    (exists i, Refers q.1 q.2 i) /\ (q.1 = own -> is_Some (D !! q.2)).
  (** the rules for one entity, apart from cycles *)
  Definition EntityOk (x : str) (f : fields) : Prop :=
    Resolved x /\
    exists k, Kind x k /\
      (forall key v, (key, v) ∈ f -> exists a, a ∈ allowed k /\ key = SStr (lit a)) /\
      match k with
      | KClass => forall w v, (w, v) ∈ f_attributes f -> exists a, RefersTo w a /\ IsAttribute a
      | KRel => forall w, f_str "inverse" f = Some w -> exists i, RefersTo w i
      | KAttr => forall w, f_str "datatype" f = Some w -> exists dt, DatatypeIri w dt
      end.
  Definition OneDefault (d : fields) : Prop :=
    (forall x f y f', D !! x = Some f -> D !! y = Some f' ->
       is_Some (get "default_rel" f) -> is_Some (get "default_rel" f') -> x = y) /\
    (forall x f, D !! x = Some f -> is_Some (get "default_rel" f) -> get "default_rel" d = None).
  Definition Accepts (d : fields) : Prop :=
    (forall x f, D !! x = Some f -> EntityOk x f) /\ OneDefault d /\
    (forall w, f_str "default_rel" d = Some w -> exists i, DefaultRel w i).

  (** ** What an accepted document says *)
  Inductive Says (d : fields) : otriple -> Prop :=
  | Says_label x i : is_Some (D !! x) -> Named own x i -> Says d (iri i, p_prefLabel, LIT (r_en R x))
  | Says_description x f i t : D !! x = Some f -> Named own x i -> f_str "description" f = Some t ->
      Says d (iri i, p_isDefinedBy, LIT (r_en R t))
  | Says_type x i t : is_Some (D !! x) -> Named own x i -> HasType x t -> Says d (iri i, p_type, t)
  | Says_super x f i w j k : D !! x = Some f -> Named own x i -> w ∈ f_supers f -> RefersTo w j -> Kind x k ->
      Says d (iri i, match k with KClass => p_subClassOf | _ => p_subPropertyOf end, iri j)
  | Says_inverse x f i w j : D !! x = Some f -> Named own x i -> Kind x KRel ->
      f_str "inverse" f = Some w -> RefersTo w j -> Says d (iri i, p_inverseOf, iri j)
  | Says_default x f i n : D !! x = Some f -> Named own x i -> Kind x KRel -> NsIri own n ->
      f_default_rel f = Some true -> Says d (iri n, p_default_rel, iri i)
  | Says_default_doc w j n : f_str "default_rel" d = Some w -> DefaultRel w j -> NsIri own n ->
      Says d (iri n, p_default_rel, iri j)
  | Says_range x f i w dt : D !! x = Some f -> Named own x i -> Kind x KAttr ->
      f_str "datatype" f = Some w -> DatatypeIri w dt -> Says d (iri i, p_range, iri dt)
  | Says_datatype x f w dt : D !! x = Some f -> Kind x KAttr ->
      f_str "datatype" f = Some w -> DatatypeIri w dt ->
      (startswith Datatype.STR_PREFIX dt = true \/ startswith Datatype.VEC_PREFIX dt = true) ->
      Says d (iri dt, p_type, rdfs_Datatype).

  (** ** Attributes of classes *)
  Definition Declared (x w : str) (v : option yaml) : Prop :=
    exists f, D !! x = Some f /\ Kind x KClass /\ (w, v) ∈ f_attributes f.
  (** one slot for each declaration *)
  Definition Slots (m : list slot) : Prop :=
    exists l : list (str * str * option yaml), base.NoDup l /\
      (forall x w v, (x, w, v) ∈ l <-> Declared x w v) /\
      Forall2 (fun p e => Named own p.1.1 (s_class e) /\ RefersTo p.1.2 (s_attr e) /\ s_default e = p.2) l m.
  Inductive SlotSays (e : slot) : otriple -> Prop :=
  | SS_node : SlotSays e (iri (s_class e), p_subClassOf, BN (s_node e))
  | SS_restriction : SlotSays e (BN (s_node e), p_type, owl_Restriction)
  | SS_one : SlotSays e (BN (s_node e), p_cardinality, LIT (r_one R))
  | SS_on : SlotSays e (BN (s_node e), p_onProperty, iri (s_attr e))
  | SS_default v : s_default e = Some v -> SlotSays e (iri (s_class e), p_default, BN (s_dnode e))
  | SS_attribute v : s_default e = Some v -> SlotSays e (BN (s_dnode e), p_default_attribute, iri (s_attr e))
  | SS_value v : s_default e = Some v -> SlotSays e (BN (s_dnode e), p_default_value, LIT (r_lit R v)).

  (** ** Assumptions about namespaces *)
  (** The document's namespace is not referenced by label, and its IRI is kept
      apart from those of the other namespaces. *)
  Definition Apart : Prop :=
    forall i, NsIri own i -> EndsWithHashOrSlash i /\ ~ ByLabel i /\
      forall ns j, ns <> own -> NsIri ns j ->
        EndsWithHashOrSlash j /\ j <> i /\ (ByLabel j -> forall rest, i <> j ++ rest).
End Spec.

(** The document [y] with top-level fields [d] defines the namespace [own] with the
    entities [D].  The keys of a dictionary are different. *)
Definition Reads (y : yaml) (d : fields) (own : str) (D : gmap str fields) : Prop :=
  y = YDict d /\
  exists ns o es, f_str "namespace" d = Some ns /\ own = lower ns /\
    get "ontology" d = Some o /\ entities o = Some es /\
    base.NoDup (map fst es) /\
    D = list_to_map es /\
    (forall x f, (x, f) ∈ es -> base.NoDup (map fst (f_attributes f))).

Definition run (R : rdf) := parse (r_num R) (r_text R) (r_en R) (r_lit R) (r_true R) (r_one R) (r_pick R) (r_installed R).
