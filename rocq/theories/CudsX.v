(** Adding and updating with objects of another session: osp/core/cuds.py (add, update,
    _recursive_store, _fix_neighbors), osp/core/utils/wrapper_development.py
    (get_neighbor_diff, clone_cuds_object, create_recycle, create_from_cuds_object,
    change_oclass).

    A world maps session numbers to the sessions of Cuds.v; a Python object is a handle:
    its session and its uid.  Every read and write goes through the session of the
    handle it is made on.  Simplifications: as in Cuds.v, all sessions are core
    sessions; [mk] stands for OntologyClass._get_attributes_values and the conversion of
    the values (C48, C08), which may raise. *)
From stdpp Require Import base list gmap countable.
From Verif Require Import Prelude Cuds.

Definition sid := N.
Definition world := sid -> sess.
Definition upd (w : world) (k : sid) (s : sess) : world := fun k' => if decide (k' = k) then s else w k'.
Record obj := Obj { o_sid : sid; o_uid : uid }.
Global Instance obj_eq_dec : EqDecision obj.
Proof. solve_decision. Defined.

(** the graph and the registry behind a handle *)
Definition graph_of (w : world) (o : obj) : graph := gr (w (o_sid o)).
Definition set_graph (w : world) (o : obj) (g : graph) : world := upd w (o_sid o) (set_gr (w (o_sid o)) g).

Section Model.
  Context (O : onto) (mk : cls -> list (attr * lit) -> res (list (attr * lit))).
  Definition active (r : rel) : bool := o_sub O r (o_active O).

  (** session.py:53-66 [load] of one uid as a handle *)
  Definition load1 (w : world) (k : sid) (u : uid) : option obj :=
    if decide (u ∈ reg (w k)) then Some (Obj k u) else None.

  (** wrapper_development.py:27-71 [get_neighbor_diff] of graphs g1 and g2 (None: cuds2
      is None); the caller handles cuds1 = None. *)
  Definition neighbor_diff (g1 : graph) (u : uid) (g2 : option graph) (nonactive : bool) : list (uid * rel) :=
    flat_map (fun r =>
      if nonactive && active r then []
      else map (fun v => (v, r))
             (filter (fun v => negb (match g2 with Some g => linked g u r v | None => false end) = true) (targets g1 u r)))
      (rels_of g1 u).

  (** wrapper_development.py:74-85 [clone_cuds_object], cuds.py:884-908
      [__getstate__]/[__setstate__]: the triples of the object and the types of its
      neighbours, in a graph of its own. *)
  Definition clone (g : graph) (u : uid) : graph :=
    filter (fun t => bool_decide (fst t = u) ||
      match snd t with TType _ => existsb (fun r => linked g u r (fst t)) (rels_of g u) | _ => false end = true) g.

  (** cuds.py:135-144 [get_attributes] as a dict *)
  Definition attrs_of (g : graph) (u : uid) : list attr :=
    remove_dups (omap (fun t : triple => match t with
      | (s, TAttr a _) => if decide (s = u) then Some a else None
      | _ => None
      end) (elements g)).
  Definition attr_dict (g : graph) (u : uid) : list (attr * lit) :=
    flat_map (fun a => match list.last (attr_values g u a) with Some l => [(a, l)] | None => [] end) (attrs_of g u).

  Definition own (u : uid) (c : cls) (attrs : list (attr * lit)) : graph :=
    {[ (u, TType c) ]} ∪ list_to_set (map (fun al => (u, TAttr (fst al) (snd al))) attrs).
  Definition no_links (g : graph) (u : uid) : graph :=
    filter (fun t => match t with (s, TLink _ _) => bool_decide (s <> u) | _ => true end = true) g.

  (** wrapper_development.py:88-124 [create_recycle] with fix_neighbors=False, 153-186
      [change_oclass]: the neighbours were removed before, so its loop is empty. *)
  Definition create_recycle (w : world) (c : cls) (kw : list (attr * lit)) (k : sid) (u : uid) : world * res obj :=
    let s := w k in
    if decide (u ∈ reg s) then
      let g := no_links (gr s) u in
      match mk c kw with
      | Err e => (upd w k (set_gr s g), Err e)
      | Ok attrs => (upd w k (set_gr s (filter (fun t => fst t <> u) g ∪ own u c attrs)), Ok (Obj k u))
      end
    else match mk c kw with
         | Err e => (w, Err e)
         | Ok attrs => match create s u c attrs with
                       | (s', None) => (upd w k s', Ok (Obj k u))
                       | (s', Some e) => (upd w k s', Err e)
                       end
         end.

  (** neighbor_dict.py:128-131, 175-194: x._neighbors[r][v] = classes *)
  Definition set_neighbor (g : graph) (x : uid) (r : rel) (v : uid) (cs : list cls) : graph :=
    g ∪ {[ (x, TLink r v) ]} ∪ list_to_set (map (fun c => (v, TType c)) cs).
  (* x._neighbors[r] = {} *)
  Definition clear_rel (g : graph) (x : uid) (r : rel) : graph :=
    filter (fun t => match t with (s, TLink r' _) => negb (bool_decide (s = x) && bool_decide (r' = r)) | _ => true end = true) g.

  (** wrapper_development.py:126-149 [create_from_cuds_object] *)
  Definition create_from (w : world) (src : obj) (k : sid) : world * res obj :=
    if decide (o_sid src = k) then (w, Err AssertionError) else
    let u := o_uid src in
    match classes (graph_of w src) u with
    | [] => (w, Err TypeError)                            (* oclass is None *)
    | c :: _ =>
        match create_recycle w c (attr_dict (graph_of w src) u) k u with
        | (w1, Err e) => (w1, Err e)
        | (w1, Ok cl) =>
            let gs := graph_of w1 src in
            (foldl (fun w r =>
               foldl (fun w v => set_graph w cl (set_neighbor (graph_of w cl) (o_uid cl) r v (classes gs v)))
                 (set_graph w cl (clear_rel (graph_of w cl) (o_uid cl) r)) (targets gs u r))
               w1 (rels_of gs u), Ok cl)
        end
    end.

  (** missing: the dict uid -> [(object, relationship)] as a list of its entries *)
  Definition missing_t := list (uid * (obj * rel)).

  (** cuds.py:492-527 [_fix_new_parents] *)
  Definition fix_new_parent (new : obj) (wm : world * missing_t) (x : (uid * rel) * option obj) : world * missing_t :=
    let '(w, missing) := wm in
    let '((v, r), parent) := x in
    if active r then (w, missing) else
    match parent with
    | None => (w, missing ++ [(v, (new, r))])
    | Some p => (set_graph w p (set_neighbor (graph_of w p) (o_uid p) (o_inv O r) (o_uid new)
                                  (classes (graph_of w new) (o_uid new))), missing)
    end.

  (** cuds.py:529-564 [_fix_old_neighbors]; [old] is the graph of the clone.  The
      restored parents are the first ones of the old object, as many as the neighbour
      has relationships. *)
  Definition fix_old_neighbor (new : obj) (old : graph) (w : world) (x : (uid * rel) * option obj) : world * option exn :=
    let '((v, r), neighbor) := x in
    match neighbor with
    | None => (w, Some AttributeError)
    | Some nb =>
        if active r then
          (if decide (o_inv O r ∈ rels_of (graph_of w nb) (o_uid nb))
           then set_graph w nb (remove_direct (graph_of w nb) (o_uid nb) (o_inv O r) (o_uid new)) else w, None)
        else
          let items := zip (targets old (o_uid new) r) (rels_of (graph_of w nb) (o_uid nb)) in
          (foldl (fun w it => set_graph w new (set_neighbor (graph_of w new) (o_uid new) r (fst it) (classes old (fst it)))) w items, None)
    end.
  Fixpoint fix_old_neighbors (new : obj) (old : graph) (w : world) (xs : list ((uid * rel) * option obj)) : world * option exn :=
    match xs with
    | [] => (w, None)
    | x :: xs' => match fix_old_neighbor new old w x with
                  | (w1, None) => fix_old_neighbors new old w1 xs'
                  | (w1, Some e) => (w1, Some e)
                  end
    end.

  (** cuds.py:433-490 [_fix_neighbors] *)
  Definition fix_neighbors (w : world) (new : obj) (old : option graph) (k : sid) (missing : missing_t) : world * res missing_t :=
    let g := graph_of w new in
    let d1 := neighbor_diff g (o_uid new) old true in
    let d2 := match old with None => [] | Some og => neighbor_diff og (o_uid new) (Some g) false end in
    let '(w1, m1) := foldl (fix_new_parent new) (w, missing) (map (fun x => (x, load1 w k (fst x))) d1) in
    match old with
    | None => (w1, Ok m1)
    | Some og => match fix_old_neighbors new og w1 (map (fun x => (x, load1 w k (fst x))) d2) with
                 | (w2, None) => (w2, Ok m1)
                 | (w2, Some e) => (w2, Err e)
                 end
    end.

  (** cuds.py:408-422: the children to add; [getter] is the object in its own session *)
  Record item := Item { i_to : obj; i_new : obj; i_old : option obj }.
  Fixpoint add_children (w : world) (self new getter : obj) (xs : list (rel * uid)) (queue : list item) (stored : gset uid)
    : res (list item * gset uid) :=
    match xs with
    | [] => Ok (queue, stored)
    | (r, v) :: xs' =>
        if decide (v ∈ stored) then add_children w self new getter xs' queue stored else
        match get O (w (o_sid getter)) (o_uid getter) [v] (Some r) None with
        | Err e => Err e
        | Ok (One (Some u)) =>
            add_children w self new getter xs' (queue ++ [Item new (Obj (o_sid getter) u) (load1 w (o_sid self) v)]) (stored ∪ {[u]})
        | Ok _ => Err AttributeError
        end
    end.
  Definition active_links (g : graph) (u : uid) : list (rel * uid) :=
    flat_map (fun r => if active r then map (fun v => (r, v)) (targets g u r) else []) (rels_of g u).

  (** cuds.py:424-428: the deletion of the links to missing objects *)
  Definition delete_missing (w : world) (m : missing_t) : world :=
    foldl (fun w x => let '(v, (o, r)) := x in set_graph w o (remove_direct (graph_of w o) (o_uid o) r v)) w m.

  (** cuds.py:377-428 [_recursive_store]: the while loop.  OutOfFuel is
      shown to be impossible (C20_terminates). *)
  Fixpoint store_loop (fuel : nat) (self : obj) (w : world) (queue : list item) (stored : gset uid) (missing : missing_t)
    (result : option obj) : world * res (option obj) :=
    match queue, fuel with
    | [], _ => (delete_missing w missing, Ok result)
    | _, 0 => (w, Err OutOfFuel)
    | it :: queue', S fuel' =>
        let new := i_new it in
        let missing1 := filter (fun x => fst x <> o_uid new) missing in
        let old := option_map (fun o => clone (graph_of w o) (o_uid o)) (i_old it) in
        match create_from w new (o_sid (i_to it)) with
        | (w1, Err e) => (w1, Err e)
        | (w1, Ok cl) =>
            match fix_neighbors w1 cl old (o_sid (i_to it)) missing1 with
            | (w2, Err e) => (w2, Err e)
            | (w2, Ok missing2) =>
                match add_children w2 self cl new (active_links (graph_of w2 cl) (o_uid cl)) queue' stored with
                | Err e => (w2, Err e)
                | Ok (queue2, stored2) =>
                    store_loop fuel' self w2 queue2 stored2 missing2 (match result with Some r => Some r | None => Some cl end)
                end
            end
        end
    end.
  Definition recursive_store (w : world) (self new : obj) (old : option obj) : world * res (option obj) :=
    store_loop (2 + size (graph_of w new)) self w [Item self new old] {[ o_uid new; o_uid self ]} [] None.

  (** cuds.py:158-203 [add] for objects of any session *)
  Fixpoint x_add (w : world) (a : obj) (r : rel) (bs : list obj) : world * res (list obj) :=
    match bs with
    | [] => (w, Ok [])
    | b :: bs' =>
        if linked (graph_of w a) (o_uid a) r (o_uid b) then (w, Err ValueError) else
        let '(w1, rb) :=
          if decide (o_sid a = o_sid b) then (w, Ok b)
          else match recursive_store w a b (load1 w (o_sid a) (o_uid b)) with
               | (w1, Ok (Some b')) => (w1, Ok b')
               | (w1, Ok None) => (w1, Err AttributeError)
               | (w1, Err e) => (w1, Err e)
               end in
        match rb with
        | Err e => (w1, Err e)
        | Ok b' =>
            let w2 := set_graph w1 a (set_neighbor (graph_of w1 a) (o_uid a) r (o_uid b') (classes (graph_of w1 b') (o_uid b'))) in
            let w3 := set_graph w2 b' (set_neighbor (graph_of w2 b') (o_uid b') (o_inv O r) (o_uid a) (classes (graph_of w2 a) (o_uid a))) in
            let '(w4, res) := x_add w3 a r bs' in (w4, rmap (cons b') res)
        end
    end.

  (** cuds.py:246-288 [update] *)
  Fixpoint update_all (w : world) (a : obj) (xs : list (obj * obj)) : world * res (list obj) :=
    match xs with
    | [] => (w, Ok [])
    | (b, old) :: xs' =>
        if decide (o_sid b = o_sid a) then (w, Err ValueError) else
        match recursive_store w a b (Some old) with
        | (w1, Ok (Some b')) => let '(w2, res) := update_all w1 a xs' in (w2, rmap (cons b') res)
        | (w1, Ok None) => (w1, Err AttributeError)
        | (w1, Err e) => (w1, Err e)
        end
    end.
  Definition x_update (w : world) (a : obj) (bs : list obj) : world * res (list obj) :=
    match get O (w (o_sid a)) (o_uid a) (map o_uid bs) (Some (o_active O)) None with
    | Err e => (w, Err e)
    | Ok r =>
        let olds := match r with One x => [x] | Many l => l end in
        if forallb (fun x => bool_decide (x <> None)) olds
        then update_all w a (zip bs (map (Obj (o_sid a)) (omap id olds)))
        else (w, Err ValueError)
    end.
End Model.
