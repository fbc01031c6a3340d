(** Printing and drawing a CUDS object with everything below it:
    osp/core/utils/pretty_print.py and osp/core/utils/cuds2dot.py.

    As in Cuds.v the session is a core session and objects are identified with
    their uids. *)
From stdpp Require Import base list gmap sorting.
From Verif Require Import Prelude Utf8 Uuid Cuds Traverse Utils.

(** ** pretty_print *)

(** The strings printed for an object: str(x.oclass), str(relationship) and
    x.name if hasattr(x, "name") (cuds.py:793-824).  Simplification: the name is a
    text. *)
Record labels := Labels {
  l_class : uid -> str;
  l_rel : rel -> str;
  l_name : uid -> option str
}.

(** Python's order of texts: by code points. *)
Fixpoint str_cmp (x y : str) : comparison :=
  match x, y with
  | [], [] => Eq
  | [], _ => Lt
  | _, [] => Gt
  | a :: x', b :: y' => match N.compare a b with Eq => str_cmp x' y' | c => c end
  end.
Definition name_cmp (x y : option str) : comparison :=
  match x, y with
  | Some a, Some b => str_cmp a b
  | None, None => Eq
  | None, Some _ => Lt
  | Some _, None => Gt
  end.

Section Pretty.
  Context (O : onto) (s : sess) (L : labels).

  (** pretty_print.py:78-80: the sort key (class, relationship, name). *)
  Definition key_cmp (x y : uid * rel) : comparison :=
    match str_cmp (l_class L (fst x)) (l_class L (fst y)) with
    | Eq => match str_cmp (l_rel L (snd x)) (l_rel L (snd y)) with
            | Eq => name_cmp (l_name L (fst x)) (l_name L (fst y))
            | c => c
            end
    | c => c
    end.
  Definition key_le (x y : uid * rel) : Prop := key_cmp x y <> Gt.
  Global Instance key_le_dec x y : Decision (key_le x y).
  Proof. unfold key_le. solve_decision. Defined.

  (** False (no name) and a text cannot be compared. *)
  Definition incomparable (x y : uid * rel) : bool :=
    bool_decide (l_class L (fst x) = l_class L (fst y)) &&
    bool_decide (l_rel L (snd x) = l_rel L (snd y)) &&
    bool_decide (l_name L (fst x) = None) && bool_decide (l_name L (fst y) <> None).

  (** sorted(..., key=...): every comparison sort has to compare some named with
      some unnamed object of equal class and relationship if there are both. *)
  Definition sort_pairs (ps : list (uid * rel)) : res (list (uid * rel)) :=
    if existsb (fun x => existsb (incomparable x) ps) ps then Err TypeError
    else Ok (merge_sort key_le ps).

  (** cuds.py:332-375 [iter] with return_rel=True; an object that cannot be loaded
      is None and has no uid. *)
  Definition iter_rel (u : uid) (r : rel) : res (list (uid * rel)) :=
    match get_ O (gr s) u [] (Some r) None with
    | Err e => Err e
    | Ok (_, m) =>
        if forallb (fun ur : uid * gset rel => bool_decide (fst ur ∈ reg s)) m
        then Ok (flat_map (fun ur : uid * gset rel => map (fun q => (fst ur, q)) (elements (snd ur))) m)
        else Err AttributeError
    end.

  (** pretty_print.py:76-81 *)
  Definition kids (u : uid) (r : rel) : res (list (uid * rel)) :=
    match iter_rel u r with Err e => Err e | Ok ps => sort_pairs ps end.

  (** pretty_print.py:67-70: the active relationships of u, sorted by name *)
  Definition rel_le (p q : rel) : Prop := str_cmp (l_rel L p) (l_rel L q) <> Gt.
  Global Instance rel_le_dec p q : Decision (rel_le p q).
  Proof. unfold rel_le. solve_decision. Defined.
  Definition sorted_rels (u : uid) : list rel :=
    merge_sort rel_le (filter (fun r => o_sub O r (o_active O) = true) (rels_of (gr s) u)).
End Pretty.

(** The lines of the printed text.  The number is the level of indentation.
    [LRel k a r]: " |_Relationship r:" below the object a.
    [LObj k a r b full]: the name and uuid of b, printed below a and r, followed by
    its values and subelements (full) or by "(already printed)".
    Simplification: the values are not modelled, nor the characters "|" and "."
    that decorate the indentation. *)
Inductive line := LRel (k : nat) (a : uid) (r : rel) | LObj (k : nat) (a : uid) (r : rel) (b : uid) (full : bool).

Section Lines.
  Context (rels : uid -> list rel) (kids : uid -> rel -> res (list (uid * rel))).

  (** pretty_print.py:81-107: the loop over the objects of one relationship.
      [rec] prints the subelements of an object; the set of visited objects is
      shared. *)
  Fixpoint pp_objs (rec : uid -> gset uid -> res (gset uid * list line)) (k : nat) (u : uid) (r : rel)
    (ps : list (uid * rel)) (visited : gset uid) : res (gset uid * list line) :=
    match ps with
    | [] => Ok (visited, [])
    | (b, q) :: ps' =>
        if decide (q = r) then
          if decide (b ∈ visited) then
            match pp_objs rec k u r ps' visited with
            | Ok (v, ls) => Ok (v, LObj k u r b false :: ls)
            | Err e => Err e
            end
          else
            match rec b visited with
            | Err e => Err e
            | Ok (v1, ls1) =>
                match pp_objs rec k u r ps' v1 with
                | Ok (v, ls) => Ok (v, LObj k u r b true :: ls1 ++ ls)
                | Err e => Err e
                end
            end
        else pp_objs rec k u r ps' visited
    end.

  (** pretty_print.py:73-80: the loop over the relationships. *)
  Fixpoint pp_rels (rec : uid -> gset uid -> res (gset uid * list line)) (k : nat) (u : uid)
    (rs : list rel) (visited : gset uid) : res (gset uid * list line) :=
    match rs with
    | [] => Ok (visited, [])
    | r :: rs' =>
        match kids u r with
        | Err e => Err e
        | Ok ps =>
            match pp_objs rec k u r ps visited with
            | Err e => Err e
            | Ok (v1, ls1) =>
                match pp_rels rec k u rs' v1 with
                | Ok (v, ls) => Ok (v, LRel k u r :: ls1 ++ ls)
                | Err e => Err e
                end
            end
        end
    end.

  (** pretty_print.py:50-101 [_pp_subelements]; fuel bounds the depth of the
      recursion. *)
  Fixpoint pp_subelements (fuel : nat) (k : nat) (u : uid) (visited : gset uid)
    : res (gset uid * list line) :=
    match fuel with
    | O => Err OutOfFuel
    | S f => pp_rels (pp_subelements f (S k)) k u (rels u) (visited ∪ {[u]})
    end.
End Lines.

(** pretty_print.py:7-29 [pretty_print]: the lines below the header of u. *)
Definition pretty_print (O : onto) (s : sess) (L : labels) (fuel : nat) (u : uid) : res (list line) :=
  match pp_subelements (sorted_rels O s L) (kids O s L) fuel 0 u ∅ with
  | Ok (_, ls) => Ok ls
  | Err e => Err e
  end.

(** ** Cuds2dot *)

(** cuds2dot.py:104-115 [shorten_uid] *)
Definition shorten_uid (u : uid) : str :=
  firstn 8 (uuid_str u) ++ [46; 46; 46]%N ++ skipn (length (uuid_str u) - 3) (uuid_str u).

(** The statements added to the graphviz graph: a node drawn for the object u
    (root tells whether it is coloured as the root) or an edge drawn for the
    connection of a to b by r.  Only the ids are written to the file.  Simplification: the label of a node (class and attributes) is not
    modelled. *)
Inductive dot := DNode (id : str) (u : uid) (root : bool) | DEdge (from to : str) (a : uid) (r : rel) (b : uid).

(** The attributes of a Cuds2dot object that change. *)
Record drawing := Drawing { d_visited : gset uid; d_graph : list dot }.

Section Draw.
  Context (O : onto) (s : sess) (rt : uid).

  (** cuds2dot.py:67-86 [_add_node] *)
  Definition add_node (d : drawing) (u : uid) : drawing :=
    Drawing (d_visited d) (d_graph d ++ [DNode (shorten_uid u) u (bool_decide (shorten_uid u = shorten_uid rt))]).
  Definition visit (d : drawing) (u : uid) : drawing := Drawing (d_visited d ∪ {[u]}) (d_graph d).
  (** cuds2dot.py:58-60, 90-102: one edge per relationship *)
  Definition add_edges (d : drawing) (a b : uid) : drawing :=
    Drawing (d_visited d)
      (d_graph d ++ map (fun r => DEdge (shorten_uid a) (shorten_uid b) a r b) (elements (relationships_between s a b))).

  Fixpoint add_related (rec : drawing -> uid -> option drawing) (a : uid) (l : list uid) (d : drawing)
    : option drawing :=
    match l with
    | [] => Some d
    | b :: l' =>
        let d1 := add_edges d a b in
        if decide (b ∈ d_visited d1) then add_related rec a l' d1
        else match rec (visit (add_node d1 b) b) b with
             | Some d2 => add_related rec a l' d2
             | None => None
             end
    end.

  (** cuds2dot.py:46-67 [_add_directly_related]; None: out of fuel *)
  Fixpoint add_directly_related (fuel : nat) (d : drawing) (a : uid) : option drawing :=
    match fuel with
    | 0%nat => None
    | S f => add_related (add_directly_related f) a (iter_nbrs O s (Some (o_relationship O)) a) d
    end.

  (** cuds2dot.py:37-44 [render], up to the writing of the file *)
  Definition render (fuel : nat) (d : drawing) : option drawing :=
    add_directly_related fuel (visit (add_node d rt) rt) rt.
  (** cuds2dot.py:19-30 [__init__] *)
  Definition new_drawing : drawing := Drawing ∅ [].
End Draw.
