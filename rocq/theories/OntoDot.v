(** Drawing ontologies: osp/core/tools/ontology2dot.py (Ontology2Dot).

    Simplifications: entities and namespaces are abstract; what the ontology says of them
    (kind, direct superclasses, inverse, attributes, datatype) are parameters, computed by
    the code of C22-C24, C48 and C49.  A node is identified with its entity ([str] of an entity is
    "NAMESPACE.name").  The HTML of the label is its list of rows.  Writing the file and running
    graphviz are left out, as is the border of a cluster.  [rel.inverse] adds a generated
    inverse to the ontology if there is none: the model takes the ontology with these added.  Recursion is bounded by fuel (Python's recursion limit). *)
From stdpp Require Import base sets list gmap countable.
From Verif Require Import Prelude Utf8 Text.

(** The classes OntologyClass, OntologyRelationship, OntologyAttribute. *)
Inductive ekind := KClass | KRel | KAttr.
(** The label of an edge, lines 100, 136-137. *)
Inductive elabel := LIsA | LInverse.
(** A row of a label: an attribute (name and default), or the datatype of an attribute. *)
Inductive lrow := RAttr (name default : str) | RDatatype (dt : option str).

Section Draw.
  Context {E NS : Type} `{Countable E} `{EqDecision NS}.
  (** The drawn node: the cluster it is in (None: the graph itself), its label, and
      whether it is filled. *)
  Record dnode := DNode { n_cluster : option NS; n_entity : E; n_rows : list lrow; n_filled : bool }.
  Record dedge := DEdge { e_from : E; e_to : E; e_label : elabel }.
  (** The attributes [_visited], [_graph] and [_subgraphs] (its keys in order). *)
  Record odrawing := ODrawing { o_visited : gset E; o_nodes : list dnode; o_edges : list dedge; o_clusters : list NS }.

  Context (kind : E -> ekind) (namespace_of : E -> NS) (superclasses : E -> list E)
    (inverse : E -> E) (generated : E -> bool)
    (attributes : E -> list (str * str)) (datatype : E -> option str).
  (** ontology2dot.py:24-41 [__init__]: [_namespaces] and [_group]. *)
  Context (chosen : list NS) (group : bool).

  (** 49-61 [_get_subgraph]: the cluster, which is created when needed. *)
  Definition get_subgraph (ns : NS) (d : odrawing) : option NS * odrawing :=
    if negb group then (None, d)
    else if bool_decide (ns ∈ o_clusters d) then (Some ns, d)
    else (Some ns, ODrawing (o_visited d) (o_nodes d) (o_edges d) (o_clusters d ++ [ns])).
  Definition add_node (n : dnode) (d : odrawing) : odrawing :=
    ODrawing (o_visited d) (o_nodes d ++ [n]) (o_edges d) (o_clusters d).
  (** 154-164 [_add_edge] *)
  Definition add_edge (x y : E) (l : elabel) (d : odrawing) : odrawing :=
    ODrawing (o_visited d) (o_nodes d) (o_edges d ++ [DEdge x y l]) (o_clusters d).
  (** 88 [_visited.add] *)
  Definition add_visited (e : E) (d : odrawing) : odrawing :=
    ODrawing (o_visited d ∪ {[e]}) (o_nodes d) (o_edges d) (o_clusters d).

  Section Rec.
    Context (rec : E -> odrawing -> option odrawing).
    (** 102-117 [_add_oclass] *)
    Definition add_oclass (e : E) (g : option NS) (d : odrawing) : option odrawing :=
      let rows := (λ '(k, v), RAttr k v) <$> attributes e in
      Some (add_node (DNode g e rows (bool_decide (namespace_of e ∈ chosen))) d).
    (** 119-137 [_add_relationship] *)
    Definition add_relationship (e : E) (g : option NS) (d : odrawing) : option odrawing :=
      let d := add_node (DNode g e [] (bool_decide (namespace_of e ∈ chosen))) d in
      if negb (generated (inverse e)) && bool_decide (inverse e ∉ o_visited d) then
        match rec (inverse e) d with
        | None => None
        | Some d => Some (add_edge e (inverse e) LInverse d)
        end
      else Some d.
    (** 139-152 [_add_attribute] *)
    Definition add_attribute (e : E) (g : option NS) (d : odrawing) : option odrawing :=
      Some (add_node (DNode g e [RDatatype (datatype e)] (bool_decide (namespace_of e ∈ chosen))) d).
    (** 98-100: the loop over the direct superclasses *)
    Fixpoint add_superclasses (e : E) (l : list E) (d : odrawing) : option odrawing :=
      match l with
      | [] => Some d
      | c :: l =>
          match rec c d with
          | None => None
          | Some d => add_superclasses e l (add_edge e c LIsA d)
          end
      end.
  End Rec.

  (** 81-100 [_add_entity]; None: out of fuel *)
  Fixpoint add_entity (fuel : nat) (e : E) (d : odrawing) {struct fuel} : option odrawing :=
    match fuel with
    | O => None
    | S fuel =>
        if bool_decide (e ∈ o_visited d) then Some d
        else
          let d := add_visited e d in
          let '(g, d) := get_subgraph (namespace_of e) d in
          match (match kind e with
                 | KClass => add_oclass e g d
                 | KRel => add_relationship (add_entity fuel) e g d
                 | KAttr => add_attribute e g d
                 end) with
          | None => None
          | Some d => add_superclasses (add_entity fuel) e (superclasses e) d
          end
    end.

  (** 72-79 [_add_namespace], for the entities of the namespace (namespace.py [__iter__]) *)
  Fixpoint add_entities (fuel : nat) (l : list E) (d : odrawing) : option odrawing :=
    match l with
    | [] => Some d
    | e :: l => match add_entity fuel e d with None => None | Some d => add_entities fuel l d end
    end.
  Context (entities : NS -> list E).
  Fixpoint add_namespaces (fuel : nat) (l : list NS) (d : odrawing) : option odrawing :=
    match l with
    | [] => Some d
    | ns :: l => match add_entities fuel (entities ns) d with None => None | Some d => add_namespaces fuel l d end
    end.
  (** 63-70 [render], up to the writing of the file *)
  Definition render_ontology (fuel : nat) : option odrawing := add_namespaces fuel chosen (ODrawing ∅ [] [] []).
End Draw.
Arguments dnode : clear implicits.
Arguments dedge : clear implicits.
Arguments odrawing E NS {_ _}.
