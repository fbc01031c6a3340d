(** CUDS objects in one session: osp/core/cuds.py, osp/core/neighbor_dict.py,
    osp/core/session/session.py, osp/core/session/registry.py.

    The session's RDF graph is a finite set of triples.  A triple is a subject
    uid together with a predicate-object pair, which is either a relationship to
    another object, an rdf:type statement or an attribute value.
    Simplifications: (1) the IRIs of relationships, attributes and classes are
    disjoint (the ontology decides for each predicate IRI which kind it is,
    neighbor_dict.py:151-154); (2) literals are opaque values; (3) the model is
    of a CoreSession: _notify_* do nothing (core_session.py); wrapper sessions
    are modelled in Buffers.v. *)
From stdpp Require Import base list gmap countable.
From Verif Require Import Prelude.

Definition uid := N.
Definition rel := N.
Definition cls := N.
Definition attr := N.
Definition lit := (N * N)%type.       (* lexical form, datatype *)

Inductive po :=
| TLink (r : rel) (o : uid)
| TType (c : cls)
| TAttr (a : attr) (l : lit).

Global Instance po_eq_dec : EqDecision po.
Proof. solve_decision. Defined.

Global Instance po_countable : Countable po.
Proof.
  refine (inj_countable'
    (fun p => match p with
              | TLink r o => inl (r, o)
              | TType c => inr (inl c)
              | TAttr a l => inr (inr (a, l))
              end)
    (fun x => match x with
              | inl (r, o) => TLink r o
              | inr (inl c) => TType c
              | inr (inr (a, l)) => TAttr a l
              end) _).
  by intros [].
Defined.

Definition triple := (uid * po)%type.
Definition graph := gset triple.

(** The ontology as seen by the CUDS layer (computed in Onto.v / Inverse.v). *)
Record onto := Onto {
  o_sub : rel -> rel -> bool;      (* r.is_subclass_of(s) *)
  o_inv : rel -> rel;              (* r.inverse *)
  o_csub : cls -> cls -> bool;     (* c.is_subclass_of(d) *)
  o_relationship : rel;            (* cuba.relationship *)
  o_active : rel                   (* cuba.activeRelationship *)
}.

(** A session: registry (the uids of its objects), graph and root. *)
Record sess := Sess { reg : gset uid; gr : graph; root : option uid }.

Definition set_gr (s : sess) (g : graph) : sess := Sess (reg s) g (root s).

(** ** Reading the graph *)

(** neighbor_dict.py:145-154 [NeighborDictRel._iter]: the relationships of u. *)
Definition rels_of (g : graph) (u : uid) : list rel :=
  remove_dups (omap (fun t : triple =>
    match t with
    | (s, TLink r _) => if decide (s = u) then Some r else None
    | _ => None
    end) (elements g)).

(** neighbor_dict.py:206-214 [NeighborDictTarget._iter] *)
Definition targets (g : graph) (u : uid) (r : rel) : list uid :=
  remove_dups (omap (fun t : triple =>
    match t with
    | (s, TLink r' v) => if decide (s = u /\ r' = r) then Some v else None
    | _ => None
    end) (elements g)).

(** cuds.py:99-107 [oclasses] and neighbor_dict.py:196-204 *)
Definition classes (g : graph) (u : uid) : list cls :=
  remove_dups (omap (fun t : triple =>
    match t with
    | (s, TType c) => if decide (s = u) then Some c else None
    | _ => None
    end) (elements g)).

(** [uid in self._neighbors[rel]] *)
Definition linked (g : graph) (u : uid) (r : rel) (v : uid) : bool :=
  bool_decide ((u, TLink r v) ∈ g).

(** ** Python dict uid -> set(relationship) in insertion order *)
Definition rmapping := list (uid * gset rel).

Fixpoint rm_add (u : uid) (r : rel) (m : rmapping) : rmapping :=
  match m with
  | [] => [(u, {[r]})]
  | (u', rs) :: m' => if decide (u' = u) then (u', rs ∪ {[r]}) :: m'
                      else (u', rs) :: rm_add u r m'
  end.

(** cuds.py:652-698 [_get_by_uids].  [nf] is the key set of not_found_uids; the
    relationships are processed in the given order. *)
Definition by_uids_step (has : rel -> uid -> bool) (uids : list uid)
  (st : gset nat * rmapping) (r : rel) : gset nat * rmapping :=
  let '(nf, m) := st in
  let all := imap pair uids in
  let iterator := match m with
                  | [] => filter (fun iu => fst iu ∈ nf) all
                  | _ => all
                  end in
  let hits := filter (fun iu => has r (snd iu) = true) iterator in
  (nf ∖ list_to_set (fst <$> hits),
   foldl (fun m iu => rm_add (snd iu) r m) m hits).

Definition get_by_uids (has : rel -> uid -> bool) (uids : list uid)
  (rels : list rel) : list (option uid) * rmapping :=
  let '(nf, m) := foldl (by_uids_step has uids)
                    (list_to_set (seq 0 (length uids)), []) rels in
  (imap (fun i u => if decide (i ∈ nf) then None else Some u) uids, m).

(** cuds.py:700-734 [_get_by_oclass]; [tgts r] enumerates the objects connected
    by r, [ok] is the class filter. *)
Definition get_by_oclass (tgts : rel -> list uid) (ok : uid -> bool)
  (rels : list rel) : rmapping :=
  foldl (fun m r => foldl (fun m u => if ok u then rm_add u r m else m) m (tgts r))
    [] rels.

(** The class filter, cuds.py:727-728. *)
Definition class_ok (O : onto) (g : graph) (oc : option cls) (u : uid) : bool :=
  match oc with
  | None => true
  | Some c => existsb (fun t => o_csub O t c) (classes g u)
  end.

Definition rel_ok (O : onto) (rf : option rel) (r : rel) : bool :=
  match rf with None => true | Some s => o_sub O r s end.

(** cuds.py:635-638: the relationships to consider. *)
Definition consider (O : onto) (g : graph) (u : uid) (rf : option rel) : list rel :=
  filter (fun r => rel_ok O rf r = true) (rels_of g u).

(** cuds.py:591-650 [_get], always computing the mapping. *)
Definition get_ (O : onto) (g : graph) (u : uid) (uids : list uid)
  (rf : option rel) (oc : option cls) : res (list (option uid) * rmapping) :=
  match uids, oc with
  | _ :: _, Some _ => Err TypeError
  | _, _ =>
      let rels := consider O g u rf in
      match rels, uids with
      | [], _ => Ok (map (fun _ => None) uids, [])
      | _, [] => let m := get_by_oclass (targets g u) (class_ok O g oc) rels in
                 Ok (map (fun um => Some (fst um)) m, m)
      | _, _ => Ok (get_by_uids (fun r v => linked g u r v) uids rels)
      end
  end.

(** session.py:53-66 [Session.load] *)
Definition load (s : sess) (uids : list uid) : list (option uid) :=
  map (fun u => if decide (u ∈ reg s) then Some u else None) uids.

(** cuds.py:736-759 [_load_cuds_objects] *)
Fixpoint load_back (uids : list (option uid)) (loaded : list (option uid))
  : list (option uid) :=
  match uids with
  | [] => []
  | None :: us => None :: load_back us loaded
  | Some _ :: us => match loaded with
                    | x :: l => x :: load_back us l
                    | [] => []
                    end
  end.
Definition load_cuds_objects (s : sess) (uids : list (option uid)) : list (option uid) :=
  load_back uids (load s (omap id uids)).

(** The result of get(): a single element for a single uid, else a list. *)
Inductive gresult := One (x : option uid) | Many (l : list (option uid)).

(** cuds.py:205-244 [get] with return_rel=False (and 332-375 [iter]). *)
Definition get (O : onto) (s : sess) (u : uid) (uids : list uid)
  (rf : option rel) (oc : option cls) : res gresult :=
  match get_ O (gr s) u uids rf oc with
  | Err e => Err e
  | Ok (us, _) =>
      let l := load_cuds_objects s us in
      match uids with
      | [_] => match l with x :: _ => Ok (One x) | [] => Err IndexError end
      | _ => Ok (Many l)
      end
  end.

(** ** Writing the graph.  A method returns the session it leaves behind even
    if it raises. *)

(** cuds.py:566-579 [_add_direct] with neighbor_dict.py:128-131, 175-194.
    [oclasses] of the added object are re-added as its type triples. *)
Definition add_direct (g : graph) (a : uid) (r : rel) (b : uid) : graph :=
  g ∪ {[ (a, TLink r b) ]} ∪ list_to_set (map (fun c => (b, TType c)) (classes g b)).

(** cuds.py:158-203 [add] for arguments of the same session. *)
Fixpoint add (O : onto) (s : sess) (a : uid) (r : rel) (bs : list uid)
  : sess * res (list uid) :=
  match bs with
  | [] => (s, Ok [])
  | b :: bs' =>
      if linked (gr s) a r b then (s, Err ValueError)
      else
        let g1 := add_direct (gr s) a r b in
        let g2 := add_direct g1 b (o_inv O r) a in
        let '(s', res) := add O (set_gr s g2) a r bs' in
        (s', rmap (cons b) res)
  end.

(** cuds.py:761-770 [_remove_direct]: the object returned by [_neighbors[rel]]
    defines neither __bool__ nor __len__, so line 769 never removes more. *)
Definition remove_direct (g : graph) (a : uid) (r : rel) (b : uid) : graph :=
  g ∖ {[ (a, TLink r b) ]}.

(** cuds.py:328-330, the inner loop of [remove].  [present] tells whether the
    neighbour could be loaded (otherwise it is None and the access raises). *)
Fixpoint remove_rels (O : onto) (g : graph) (a b : uid) (present : bool)
  (rs : list rel) : graph * option exn :=
  match rs with
  | [] => (g, None)
  | r :: rs' =>
      let g1 := remove_direct g a r b in
      if present then remove_rels O (remove_direct g1 b (o_inv O r) a) a b present rs'
      else (g1, Some AttributeError)
  end.

Fixpoint remove_all (O : onto) (s : sess) (a : uid) (m : rmapping)
  : sess * option exn :=
  match m with
  | [] => (s, None)
  | (b, rs) :: m' =>
      let '(g1, e) := remove_rels O (gr s) a b (bool_decide (b ∈ reg s)) (elements rs) in
      match e with
      | Some e => (set_gr s g1, Some e)
      | None => remove_all O (set_gr s g1) a m'
      end
  end.

(** cuds.py:290-330 [remove] *)
Definition remove (O : onto) (s : sess) (a : uid) (uids : list uid)
  (rf : option rel) (oc : option cls) : sess * option exn :=
  match get_ O (gr s) a uids rf oc with
  | Err e => (s, Some e)
  | Ok (_, []) => (s, Some RuntimeError)
  | Ok (_, m) => remove_all O s a m
  end.

(** session.py:96-107 [_delete_cuds_triples] *)
Definition delete_triples (s : sess) (u : uid) : sess * option exn :=
  if decide (u ∈ reg s) then
    (Sess (reg s ∖ {[u]}) (filter (fun t => fst t <> u) (gr s)) (root s), None)
  else (s, Some KeyError).

(** session.py:81-94 [delete_cuds_object] *)
Definition delete_cuds_object (O : onto) (s : sess) (u : uid) : sess * option exn :=
  match get O s u [] (Some (o_relationship O)) None with
  | Err e => (s, Some e)
  | Ok (Many (_ :: _)) =>
      match remove O s u [] (Some (o_relationship O)) None with
      | (s1, Some e) => (s1, Some e)
      | (s1, None) => delete_triples s1 u
      end
  | Ok _ => delete_triples s u
  end.

Definition is_attr_of (u : uid) (a : attr) (t : triple) : bool :=
  match t with
  | (u', TAttr a' _) => bool_decide (u' = u) && bool_decide (a' = a)
  | _ => false
  end.

(** cuds.py:824-848 [__setattr__] for an attribute of the object's class; rdflib
    [Graph.set] removes all values of the attribute first. *)
Definition set_attr (s : sess) (u : uid) (a : attr) (l : lit) : sess :=
  set_gr s (filter (fun t => is_attr_of u a t = false) (gr s) ∪ {[ (u, TAttr a l) ]}).

(** The conversion step of [__setattr__] (cuds.py:842-845): [conv] is
    attr.convert_to_datatype (Datatype.v); if it raises nothing is written. *)
Definition set_attr_value {V} (conv : attr -> V -> res lit) (s : sess) (u : uid)
  (a : attr) (v : V) : sess * option exn :=
  match conv a v with
  | Err e => (s, Some e)
  | Ok l => (set_attr s u a l, None)
  end.

(** The values that [__getattr__] (cuds.py:793-809) can return. *)
Definition attr_values (g : graph) (u : uid) (a : attr) : list lit :=
  omap (fun t : triple =>
    match t with
    | (s, TAttr a' l) => if decide (s = u /\ a' = a) then Some l else None
    | _ => None
    end) (elements g).

(** cuds.py:40-82 [Cuds.__init__] with session.py:36-50 [_store]. *)
Definition create (s : sess) (u : uid) (c : cls) (attrs : list (attr * lit))
  : sess * option exn :=
  if decide (u = 0%N) then (s, Some ValueError)
  else (Sess (reg s ∪ {[u]})
             (gr s ∪ {[ (u, TType c) ]}
                ∪ list_to_set (map (fun al => (u, TAttr (fst al) (snd al))) attrs))
             (match root s with Some r => Some r | None => Some u end), None).

(** ** User operations on a session *)
Inductive op :=
| Create (u : uid) (c : cls) (attrs : list (attr * lit))
| Add (a : uid) (r : rel) (bs : list uid)
| Remove (a : uid) (uids : list uid) (rf : option rel) (oc : option cls)
| SetAttr (u : uid) (a : attr) (l : lit)
| Delete (u : uid).

(** The Python objects an operation is applied to. *)
Definition op_objects (o : op) : list uid :=
  match o with
  | Create _ _ _ => []
  | Add a _ bs => a :: bs
  | Remove a _ _ _ => [a]
  | SetAttr u _ _ => [u]
  | Delete u => [u]
  end.

(** An operation is valid if the objects it is applied to are objects of the
    session (i.e. not handles of objects that have been deleted before). *)
Definition op_valid (s : sess) (o : op) : Prop :=
  Forall (fun u => u ∈ reg s) (op_objects o).

Definition step (O : onto) (s : sess) (o : op) : sess :=
  match o with
  | Create u c attrs => fst (create s u c attrs)
  | Add a r bs => fst (add O s a r bs)
  | Remove a uids rf oc => fst (remove O s a uids rf oc)
  | SetAttr u a l => set_attr s u a l
  | Delete u => fst (delete_cuds_object O s u)
  end.

Definition empty_sess : sess := Sess ∅ ∅ None.

(** Sessions reachable by valid operations; some of them may have raised. *)
Inductive reachable (O : onto) : sess -> Prop :=
| reach_init : reachable O empty_sess
| reach_step s o : reachable O s -> op_valid s o -> reachable O (step O s o).
