(** The RDF graph of a session: osp/core/utils/general.py:57-86, 113-148
    (get_rdf_graph, get_custom_datatypes, get_custom_datatype_triples),
    osp/core/session/core_session.py:24-26, osp/core/session/wrapper_session.py:160-170.

    Simplification: the triples of objects and those of the ontology are kept apart as
    the two sides of a sum; they never coincide because the subjects of the former are
    IRIs of CUDS objects. *)
From stdpp Require Import base sets list gmap countable.
From Verif Require Import Prelude Cuds Wrapper WrapperFind Onto OClass Yml.

Section rdf.
  (** cuba.py:40-45 [_CubaNamespace.__contains__] *)
  Variable in_cuba : term -> bool.

  (** general.py:113-128 [get_custom_datatypes] *)
  Definition custom_datatypes (g : ograph) : gset term :=
    filter (fun s => in_cuba s = true)
      (list_to_set ((fun t : otriple => fst (fst t)) <$> triples g (None, p_type, Some rdfs_Datatype))).

  (** general.py:131-148 [get_custom_datatype_triples] *)
  Definition custom_triples (g : ograph) : ograph :=
    set_map (fun d => (d, p_type, rdfs_Datatype)) (custom_datatypes g) ∪
    list_to_set (mjoin ((fun d => triples g (None, p_range, Some d)) <$> elements (custom_datatypes g))).

  (** general.py:57-86 [get_rdf_graph], after the graph of the session was computed *)
  Definition rdf_graph (cuds : graph) (g : ograph) (skip : bool) : gset (triple + otriple) :=
    let result := (set_map inl cuds : gset (triple + otriple)) ∪ set_map inr g in
    if skip then result ∖ set_map inr (custom_triples g) else result.

  (** get_rdf_graph of a CoreSession (core_session.py:24-26) *)
  Definition rdf_graph_core (s : sess) (g : ograph) (skip : bool) : gset (triple + otriple) :=
    rdf_graph (gr s) g skip.

  (** get_rdf_graph of a wrapper session *)
  Definition rdf_graph_wrapper (isW : cls -> bool) (O : onto) (fuel : nat) (w : wsess) (g : ograph) (skip : bool)
    : option (wsess * res (gset (triple + otriple))) :=
    match full_graph isW O fuel w with
    | None => None
    | Some (w', Err e) => Some (w', Err e)
    | Some (w', Ok c) => Some (w', Ok (rdf_graph c g skip))
    end.
End rdf.
