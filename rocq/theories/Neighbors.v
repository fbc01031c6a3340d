(** The dictionaries [cuds._neighbors] and [cuds._neighbors[rel]]:
    osp/core/neighbor_dict.py.

    Keys and values are what the argument checks distinguish; anything else is [KOther] or
    [VOther].  A notification of the session is recorded as an event ([hears]: the object has a
    session).  Simplifications: the session does not change the graph of the object when it is
    notified (a core session; for wrapper sessions see Wrapper.v); classes in the graph are
    declared in the ontology, so [from_iri] does not raise; [_check_valid_add] (cuds.py:782-783)
    does nothing. *)
From stdpp Require Import base sets list gmap countable.
From Verif Require Import Prelude Cuds.

Inductive nkey := KRel (r : rel) | KUid (u : uid) | KOther.
Inductive nval := VClasses (l : list cls) | VDict (l : list (nkey * nval)) | VOther.
Inductive event := NRead | NUpdate.

(** the graph and what the session was told, oldest first *)
Record nstate := NState { n_gr : graph; n_told : list event }.

Section Neighbors.
  Context (hears : bool).   (* [if self.cuds_object.session] *)
  Context (a : uid).        (* the object the dictionary belongs to *)

  Definition tell (e : event) (s : nstate) : nstate :=
    if hears then NState (n_gr s) (n_told s ++ [e]) else s.
  Definition edit (f : graph -> graph) (s : nstate) : nstate := NState (f (n_gr s)) (n_told s).

  (** ** One relationship: NeighborDictTarget *)
  Section Target.
    Context (r : rel).
    (** neighbor_dict.py:31-36 [__getitem__], 196-204 [_getitem] *)
    Definition target_get (k : nkey) (s : nstate) : nstate * res (list cls) :=
      match k with
      | KUid v => let s := tell NRead s in
          (s, if linked (n_gr s) a r v then Ok (classes (n_gr s) v) else Err KeyError)
      | _ => (s, Err ValueError)
      end.
    (** neighbor_dict.py:38-49 [__setitem__], 185-194 [_setitem] *)
    Definition add_target (v : uid) (cs : list cls) (g : graph) : graph :=
      g ∪ {[ (a, TLink r v) ]} ∪ list_to_set (map (fun c => (v, TType c)) cs).
    Definition target_set (k : nkey) (x : nval) (s : nstate) : nstate * option exn :=
      match k, x with
      | KUid v, VClasses cs => (tell NUpdate (edit (add_target v cs) (tell NRead s)), None)
      | _, _ => (s, Some ValueError)
      end.
    (** neighbor_dict.py:51-61 [__delitem__], 180-183 [_delitem]: [Graph.remove] of a triple that
        is not there does nothing *)
    Definition target_del (k : nkey) (s : nstate) : nstate * option exn :=
      match k with
      | KUid v => (tell NUpdate (edit (fun g => g ∖ {[ (a, TLink r v) ]}) (tell NRead s)), None)
      | _ => (s, Some ValueError)
      end.
    (** neighbor_dict.py:25-29 [__iter__], 206-214 [_iter]; [keys()] is the set of them *)
    Definition target_iter (s : nstate) : nstate * list uid :=
      let s := tell NRead s in (s, targets (n_gr s) a r).
    (** neighbor_dict.py:68-71 [update] *)
    Fixpoint target_update (l : list (nkey * nval)) (s : nstate) : nstate * option exn :=
      match l with
      | [] => (s, None)
      | (k, x) :: l' => match target_set k x s with
                        | (s', None) => target_update l' s'
                        | (s', Some e) => (s', Some e)
                        end
      end.
    (** [Graph.remove((self.iri, rel.iri, None))], neighbor_dict.py:126, 177 *)
    Definition drop_rel (g : graph) : graph :=
      filter (fun t => match t with (u, TLink r' _) => negb (bool_decide (u = a) && bool_decide (r' = r)) | _ => true end = true) g.
    (** neighbor_dict.py:175-178 [_init] *)
    Definition target_init (l : list (nkey * nval)) (s : nstate) : nstate * option exn :=
      target_update l (edit drop_rel s).
  End Target.

  (** ** All relationships: NeighborDictRel *)

  (** neighbor_dict.py:31-36, 133-135: the dictionary of one relationship *)
  Definition rel_get (k : nkey) (s : nstate) : nstate * res rel :=
    match k with
    | KRel r => (tell NRead s, Ok r)
    | _ => (s, Err ValueError)
    end.
  (** neighbor_dict.py:38-49, 128-131 *)
  Definition rel_set (k : nkey) (x : nval) (s : nstate) : nstate * option exn :=
    match k, x with
    | KRel r, VDict l => match target_init r l (tell NRead s) with
                         | (s', None) => (tell NUpdate s', None)
                         | (s', Some e) => (s', Some e)
                         end
    | _, _ => (s, Some ValueError)
    end.
  (** neighbor_dict.py:51-61, 124-126 *)
  Definition rel_del (k : nkey) (s : nstate) : nstate * option exn :=
    match k with
    | KRel r => (tell NUpdate (edit (drop_rel r) (tell NRead s)), None)
    | _ => (s, Some ValueError)
    end.
  (** neighbor_dict.py:25-29, 145-154 *)
  Definition rel_iter (s : nstate) : nstate * list rel :=
    let s := tell NRead s in (s, rels_of (n_gr s) a).
  (** neighbor_dict.py:137-143 [__bool__]: the session is not notified *)
  Definition rel_bool (s : nstate) : bool :=
    existsb (fun t : triple => match t with (u, TLink _ _) => bool_decide (u = a) | _ => false end) (elements (n_gr s)).

  (** neighbor_dict.py:73-76 [items] and 82-85 [values] of the dictionary of a relationship:
      one read for the iteration and one for every entry *)
  Fixpoint target_gets (r : rel) (ks : list uid) (s : nstate) : nstate * res (list (uid * list cls)) :=
    match ks with
    | [] => (s, Ok [])
    | v :: ks' => match target_get r (KUid v) s with
                  | (s1, Err e) => (s1, Err e)
                  | (s1, Ok cs) => match target_gets r ks' s1 with
                                   | (s2, Ok l) => (s2, Ok ((v, cs) :: l))
                                   | (s2, Err e) => (s2, Err e)
                                   end
                  end
    end.
  Definition target_items (r : rel) (s : nstate) : nstate * res (list (uid * list cls)) :=
    let '(s1, ks) := target_iter r s in target_gets r ks s1.

  (** Equality of Python dictionaries; E has every key once. *)
  Definition same_dict {K V W} `{EqDecision K} (same : V -> W -> bool) (d : list (K * V)) (E : list (K * W)) : bool :=
    bool_decide (length d = length E) &&
    forallb (fun e => match find (fun e' => bool_decide (fst e' = fst e)) E with
                      | Some e' => same (snd e) (snd e')
                      | None => false
                      end) d.
  (** neighbor_dict.py:64-66 [__eq__] with a dictionary uid -> list of classes; lists are
      equal if they have the same elements in the same order *)
  Definition target_eq (r : rel) (E : list (uid * list cls)) (s : nstate) : nstate * res bool :=
    match target_items r s with
    | (s1, Ok d) => (s1, Ok (same_dict (fun cs cs' => bool_decide (cs = cs')) d E))
    | (s1, Err e) => (s1, Err e)
    end.
  (** neighbor_dict.py:64-66 [__eq__] of the whole dictionary with a dictionary relationship
      -> uid -> classes: the values are compared by [target_eq].  Simplification: the reads
      that the comparisons of the values make are not recorded. *)
  Definition rel_eq (E : list (rel * list (uid * list cls))) (s : nstate) : nstate * bool :=
    let '(s1, ks) := rel_iter s in
    (s1, same_dict (fun r d => match snd (target_eq r d s1) with Ok b => b | Err _ => false end)
                   (map (fun r => (r, r)) ks) E).
End Neighbors.
