(** Utilities for the developers of wrappers: osp/core/utils/wrapper_development.py
    [get_neighbor_diff], [change_oclass], [create_recycle], for the core sessions of
    Cuds.v.  [mk] stands for OntologyClass._get_attributes_values and the conversion
    of the values (C48, C40), which may raise; its result is a dictionary: no
    attribute occurs twice. *)
From stdpp Require Import base list gmap countable.
From Verif Require Import Prelude Cuds CudsX.

Inductive mode := MAll | MActive | MNonActive.

Section model.
  Context (O : onto) (mk : cls -> list (attr * lit) -> res (list (attr * lit))).

  Definition mode_skips (m : mode) (r : rel) : bool :=
    match m with
    | MAll => false
    | MActive => negb (o_sub O r (o_active O))
    | MNonActive => o_sub O r (o_active O)
    end.
  (** wrapper_development.py:27-71 [get_neighbor_diff]: objects as their graph and uid,
      None: the argument is None. *)
  Definition get_neighbor_diff (x1 x2 : option (graph * uid)) (m : mode) : list (uid * rel) :=
    match x1 with
    | None => []
    | Some (g1, u1) =>
        flat_map (fun r =>
          if mode_skips m r then []
          else map (fun v => (v, r))
                 (filter (fun v => v ∉ match x2 with Some (g2, u2) => targets g2 u2 r | None => [] end) (targets g1 u1 r)))
          (rels_of g1 u1)
    end.

  (** general.py:264-279 [get_relationships_between] *)
  Definition rels_between (g : graph) (a b : uid) : list rel :=
    filter (fun r => linked g a r b = true) (rels_of g a).

  (** wrapper_development.py:168-172: the classes stored at the neighbours *)
  Fixpoint tell_neighbors (g : graph) (u : uid) (c : cls) (bs : list (option uid)) : graph * option exn :=
    match bs with
    | [] => (g, None)
    | None :: _ => (g, Some AttributeError)
    | Some b :: bs' =>
        tell_neighbors (foldl (fun g r => set_neighbor g b (o_inv O r) u [c]) g (rels_between g u b)) u c bs'
    end.
  (** wrapper_development.py:177-184: [graph.set] for every attribute *)
  Definition set_attrs (s : sess) (u : uid) (attrs : list (attr * lit)) : sess :=
    foldl (fun s al => set_attr s u (fst al) (snd al)) s attrs.
  (** wrapper_development.py:152-185 [change_oclass] *)
  Definition change_oclass (s : sess) (u : uid) (c : cls) (kw : list (attr * lit)) : sess * option exn :=
    let '(g1, e1) :=
      if decide (head (classes (gr s) u) = Some c) then (gr s, None)
      else match get O s u [] (Some (o_relationship O)) None with
           | Ok (Many bs) => tell_neighbors (gr s) u c bs
           | Ok (One _) => (gr s, None)                  (* does not happen without uids *)
           | Err e => (gr s, Some e)
           end in
    match e1 with
    | Some e => (set_gr s g1, Some e)
    | None =>
        match mk c kw with
        | Err e => (set_gr s g1, Some e)
        | Ok attrs => (set_attrs (set_gr s (filter (fun t => fst t <> u) g1 ∪ {[ (u, TType c) ]})) u attrs, None)
        end
    end.

  (** wrapper_development.py:113-119: the old links; [rels] is the set of the
      relationships in the order in which it is iterated. *)
  Fixpoint drop_links (s : sess) (u : uid) (fix_neighbors : bool) (rels : list rel) : sess * option exn :=
    match rels with
    | [] => (s, None)
    | r :: rels' =>
        if fix_neighbors then
          match remove O s u [] (Some r) None with
          | (s1, Some e) => (s1, Some e)
          | (s1, None) => drop_links s1 u fix_neighbors rels'
          end
        else drop_links (set_gr s (clear_rel (gr s) u r)) u fix_neighbors rels'
    end.
  (** wrapper_development.py:88-123 [create_recycle] *)
  Definition create_recycle (s : sess) (u : uid) (c : cls) (kw : list (attr * lit)) (fix_neighbors : bool) (rels : list rel)
    : sess * option exn :=
    if decide (u ∈ reg s) then
      match drop_links s u fix_neighbors rels with
      | (s1, Some e) => (s1, Some e)
      | (s1, None) => change_oclass s1 u c kw
      end
    else match mk c kw with
         | Err e => (s, Some e)
         | Ok attrs => create s u c attrs
         end.
End model.
