(** Wrapper sessions with a triple store as backend:
    osp/core/session/buffers.py, wrapper_session.py, db/db_wrapper_session.py,
    db/triplestore_wrapper_session.py, utils/wrapper_development.py
    (create_from_triples), and the CUDS API on top of them.

    A wrapper session is a session (Cuds.v: registry, graph, root) plus the
    current buffer context, the user's and the engine's buffers, the set of
    expired uids and the backend.
    Simplifications: (1) the backend is the set of triples it stores (how the
    SQL tables represent it is modelled in Sql.v); (2) a buffer is the set of the
    uids it has as keys; its values are objects whose graph is the session's
    graph (session.py:49); (3) a handle of an object that is no longer in the
    registry writes to a private graph: such writes are not modelled, they give
    the model-only error [Detached]; (4) QueryResult is consumed at once except
    where the code interleaves (Cuds.remove). *)
From stdpp Require Import base sets list gmap countable.
From Verif Require Import Prelude Cuds.

(** buffers.py:39-54 [BufferContext] *)
Inductive ctx := USER | ENGINE.
Global Instance ctx_eq_dec : EqDecision ctx.
Proof. solve_decision. Defined.

(** buffers.py:26-36 [BufferType]: the keys of the three dictionaries. *)
Record bufs := Bufs { badd : gset uid; bupd : gset uid; bdel : gset uid }.

(** wrapper_session.py:320-333 [_reset_buffers] *)
Definition no_bufs : bufs := Bufs ∅ ∅ ∅.

(** wrapper_session.py:336-349 [_get_buffer_uids] *)
Definition buids (b : bufs) : gset uid := badd b ∪ bupd b ∪ bdel b.

(** wrapper_session.py:51-64 [WrapperSession.__init__]; [db] is the backend. *)
Record wsess := WSess {
  core : sess; cur : ctx; ub : bufs; eb : bufs; expd : gset uid; db : graph }.

Definition w_empty (d : graph) : wsess := WSess empty_sess USER no_bufs no_bufs ∅ d.

Definition set_core (w : wsess) (s : sess) : wsess :=
  WSess s (cur w) (ub w) (eb w) (expd w) (db w).
Definition set_cur (w : wsess) (c : ctx) : wsess :=
  WSess (core w) c (ub w) (eb w) (expd w) (db w).
Definition set_ub (w : wsess) (b : bufs) : wsess :=
  WSess (core w) (cur w) b (eb w) (expd w) (db w).
Definition set_eb (w : wsess) (b : bufs) : wsess :=
  WSess (core w) (cur w) (ub w) b (expd w) (db w).
Definition set_expd (w : wsess) (e : gset uid) : wsess :=
  WSess (core w) (cur w) (ub w) (eb w) e (db w).
Definition set_db (w : wsess) (d : graph) : wsess :=
  WSess (core w) (cur w) (ub w) (eb w) (expd w) d.

(** [self._buffers[self._current_context]] *)
Definition cur_buf (w : wsess) : bufs :=
  match cur w with USER => ub w | ENGINE => eb w end.
Definition set_cur_buf (w : wsess) (b : bufs) : wsess :=
  match cur w with USER => set_ub w b | ENGINE => set_eb w b end.

Definition wreg (w : wsess) : gset uid := reg (core w).
Definition wgr (w : wsess) : graph := gr (core w).
Definition wroot (w : wsess) : option uid := root (core w).
Definition set_wgr (w : wsess) (g : graph) : wsess := set_core w (set_gr (core w) g).

(** Model-only outcomes. *)
Definition Detached : exn := OtherError 1.
Definition BackendError : exn := OtherError 2.

(** ** Buffer contexts *)

(** buffers.py:67-74 [EngineContext.__enter__] *)
Definition enter_engine (w : wsess) : wsess :=
  set_cur (if decide (cur w = ENGINE) then w else set_eb w no_bufs) ENGINE.

(** buffers.py:57-81 [with EngineContext(session): f()]: [__exit__] runs whether
    or not [f] raised, and restores the context found by [__enter__]. *)
Definition in_engine {A} (f : wsess -> wsess * A) (w : wsess) : wsess * A :=
  let '(w', a) := f (enter_engine w) in (set_cur w' (cur w), a).

(** ** Notifications *)

(** wrapper_session.py:243-263 [_notify_update] *)
Definition notify_update (w : wsess) (u : uid) : wsess * option exn :=
  let b := cur_buf w in
  if decide (u ∈ bdel b) then (w, Some RuntimeError)
  else if decide (u ∈ badd b ∪ bupd b) then (w, None)
  else (set_cur_buf w (Bufs (badd b) (bupd b ∪ {[u]}) (bdel b)), None).

(** wrapper_session.py:266-291 [_notify_delete] *)
Definition notify_delete (w : wsess) (u : uid) : wsess :=
  let b := cur_buf w in
  if decide (u ∈ badd b) then set_cur_buf w (Bufs (badd b ∖ {[u]}) (bupd b) (bdel b))
  else if decide (u ∈ bupd b) then
    set_cur_buf w (Bufs (badd b) (bupd b ∖ {[u]}) (bdel b ∪ {[u]}))
  else set_cur_buf w (Bufs (badd b) (bupd b) (bdel b ∪ {[u]})).

(** session.py:96-107 [_delete_cuds_triples] in a wrapper session *)
Definition w_delete_triples (w : wsess) (u : uid) : wsess * option exn :=
  match delete_triples (core w) u with
  | (_, Some e) => (w, Some e)
  | (s', None) => (notify_delete (set_core w s') u, None)
  end.

(** ** Storing *)

(** cuds.py:141-152 [is_a(cuba.Wrapper)]; [isW c] tells that c is a subclass of
    cuba.Wrapper. *)
Definition is_wrapper (isW : cls -> bool) (g : graph) (u : uid) : bool :=
  existsb isW (classes g u).

(** wrapper_session.py:193-204 [_store_checks] *)
Definition store_checks (isW : cls -> bool) (rt : option uid) (g : graph) (u : uid)
  : option exn :=
  if is_wrapper isW g u && bool_decide (rt <> None /\ rt <> Some u) then Some RuntimeError
  else if negb (is_wrapper isW g u) && bool_decide (rt = None) then Some RuntimeError
  else match classes g u with [] => Some TypeError | _ => None end.

(** wrapper_session.py:207-240 [WrapperSession._store] of an object with uid u
    whose own graph is ts, with session.py:36-50 [Session._store]. *)
Definition w_store (isW : cls -> bool) (w : wsess) (u : uid) (ts : graph)
  : wsess * option exn :=
  match (match classes ts u with
         | [] => None
         | _ => store_checks isW (wroot w) ts u
         end) with
  | Some e => (w, Some e)
  | None =>
      let b := cur_buf w in
      let b' := if decide (u ∈ wreg w)
                then Bufs (badd b) (bupd b ∪ {[u]}) (bdel b ∖ {[u]})
                else Bufs (badd b ∪ {[u]}) (bupd b) (bdel b ∖ {[u]}) in
      (set_core (set_cur_buf w b')
         (Sess (wreg w ∪ {[u]}) (wgr w ∪ ts)
               (match wroot w with Some r => Some r | None => Some u end)), None)
  end.

(** ** Substitution of the root (see RootIri.v for the text level) *)

(** triplestore_wrapper_session.py:70-76 [_substitute_root_iri] on one uid *)
Definition sub_root (r x : uid) : uid := if decide (x = r) then 0%N else x.
(** triplestore_wrapper_session.py:78-84 [_substitute_zero_iri] on one uid *)
Definition sub_zero (r x : uid) : uid := if decide (x = 0%N) then r else x.

Definition map_po (f : uid -> uid) (p : po) : po :=
  match p with TLink q o => TLink q (f o) | _ => p end.
Definition map_triple (f : uid -> uid) (t : triple) : triple := (f (fst t), map_po f (snd t)).
Definition map_graph (f : uid -> uid) (g : graph) : graph := set_map (map_triple f) g.

(** The triples with subject u: cuds.py:125-133 [get_triples]. *)
Definition triples_of (g : graph) (u : uid) : graph := filter (fun t => fst t = u) g.

(** The links of an object as (relationship, uid) pairs. *)
Definition links (g : graph) (u : uid) : gset (rel * uid) :=
  list_to_set (omap (fun t : triple =>
    match t with
    | (s, TLink r v) => if decide (s = u) then Some (r, v) else None
    | _ => None
    end) (elements g)).

(** sql_wrapper_session.py:279-292 [_load_triples_for_iri]: the type triples of
    the objects that u links to. *)
Definition is_type (t : triple) : bool :=
  match snd t with TType _ => true | _ => false end.
Definition neighbor_types (d : graph) (u : uid) : graph :=
  filter (fun t : triple =>
    is_type t = true /\ fst t ∈ (set_map snd (links d u) : gset uid)) d.

(** ** Loading *)

(** triplestore_wrapper_session.py:86-108 [_load_by_iri] with
    wrapper_development.py:188-232 [create_from_triples(fix_neighbors=False)]. *)
Definition load_iri (isW : cls -> bool) (w : wsess) (u : uid) : wsess * res (option uid) :=
  match wroot w with
  | None => (w, Err AttributeError)
  | Some r =>
      let du := sub_root r u in
      let ts := map_graph (sub_zero r) (triples_of (db w) du) in
      let nts := map_graph (sub_zero r) (neighbor_types (db w) du) in
      if decide (ts = ∅) then (w, Ok None)
      else
        let v := sub_zero r du in
        let w1 := set_expd w (expd w ∖ {[v]}) in
        let w2 := if decide (v ∈ wreg w1)
                  then set_wgr w1 (filter (fun t => fst t <> v) (wgr w1))
                  else fst (w_store isW w1 v ∅) in
        let w3 := set_wgr w2 (wgr w2 ∪ ts ∪ nts) in
        match store_checks isW (wroot w3) (wgr w3) v with
        | Some e => (w3, Err e)
        | None => match notify_update w3 v with
                  | (w4, Some e) => (w4, Err e)
                  | (w4, None) => (w4, Ok (Some v))
                  end
        end
  end.

(** wrapper_session.py:303-318 [_expire] *)
Definition expire (w : wsess) (us : gset uid) : wsess * gset uid :=
  let ok := us ∖ buids (ub w) in
  (set_expd w ((expd w ∪ ok) ∩ wreg w), ok ∩ wreg w).

(** wrapper_session.py:134-143 [expire_all] *)
Definition expire_all (w : wsess) : wsess := fst (expire w (wreg w)).

(** wrapper_session.py:89-101 (one missing uid) with 376-394
    [_expire_neighour_diff] and its override db_wrapper_session.py:122-127. *)
Definition load_missing (isW : cls -> bool) (us : list uid) (u : uid) (w : wsess)
  : wsess * res (option uid) :=
  let old := bool_decide (u ∈ wreg w) in
  let old_links := links (wgr w) u in
  match load_iri isW w u with
  | (w1, Err e) => (w1, Err e)
  | (w1, Ok new) =>
      let new_links := match new with Some v => links (wgr w1) v | None => ∅ end in
      let diff := set_map snd ((new_links ∖ old_links) ∪ (old_links ∖ new_links)) ∖ list_to_set us in
      let w2 := if old && bool_decide (Some u <> wroot w1)
                then fst (expire w1 diff) else w1 in
      if old && bool_decide (new = None) && bool_decide (u ∈ wreg w2) then
        match w_delete_triples w2 u with
        | (w3, Some e) => (w3, Err e)
        | (w3, None) => (w3, Ok None)
        end
      else (w2, Ok new)
  end.

(** One iteration of the loop wrapper_session.py:84-101. *)
Definition load_next (isW : cls -> bool) (missing : gset uid) (us : list uid) (u : uid)
  (w : wsess) : wsess * res (option uid) :=
  if decide (u ∈ missing) then load_missing isW us u w
  else if decide (u ∈ wreg w) then (w, Ok (Some u)) else (w, Err KeyError).

(** The loop; every element is produced in its own engine context (result.py:9-23,
    buffers.py:84-110 [EngineContextIterator]). *)
Fixpoint load_loop (isW : cls -> bool) (missing : gset uid) (us todo : list uid) (w : wsess)
  : wsess * res (list (option uid)) :=
  match todo with
  | [] => (w, Ok [])
  | u :: todo' =>
      match in_engine (load_next isW missing us u) w with
      | (w1, Err e) => (w1, Err e)
      | (w1, Ok x) => let '(w2, r) := load_loop isW missing us todo' w1 in
                      (w2, rmap (cons x) r)
      end
  end.

(** wrapper_session.py:75-82: the uids to fetch and the new expired set. *)
Definition missing_uids (w : wsess) (us : list uid) : list uid :=
  filter (fun u => u ∉ wreg w \/ u ∈ expd w) us.
Definition load_prelude (w : wsess) (us : list uid) : wsess :=
  set_expd w (expd w ∖ (list_to_set us ∩ expd w)).

(** wrapper_session.py:71-111 [load] *)
Definition wload (isW : cls -> bool) (w : wsess) (us : list uid)
  : wsess * res (list (option uid)) :=
  match wroot w with
  | None => (w, Err RuntimeError)
  | Some _ => load_loop isW (list_to_set (missing_uids w us)) us us (load_prelude w us)
  end.

(** wrapper_session.py:145-158 [refresh] *)
Definition refresh (isW : cls -> bool) (w : wsess) (us : list uid) : wsess * option exn :=
  match us with
  | [] => (w, None)
  | _ => let '(w1, ids) := expire w (list_to_set us) in
         match wload isW w1 (elements ids) with
         | (w2, Err e) => (w2, Some e)
         | (w2, Ok _) => (w2, None)
         end
  end.

(** wrapper_session.py:293-298 [_notify_read] *)
Definition notify_read (isW : cls -> bool) (w : wsess) (u : uid) : wsess * option exn :=
  if decide (u ∈ expd w) then refresh isW w [u] else (w, None).

(** ** The user's operations *)

(** A write to object u: neighbor_dict.py:38-49 [__setitem__], 51-61
    [__delitem__], cuds.py:824-848 [__setattr__]: notify_read, change the graph,
    notify_update. *)
Definition w_write (isW : cls -> bool) (f : sess -> sess) (w : wsess) (u : uid)
  : wsess * option exn :=
  match notify_read isW w u with
  | (w1, Some e) => (w1, Some e)
  | (w1, None) =>
      if decide (u ∈ wreg w1) then notify_update (set_core w1 (f (core w1))) u
      else (w1, Some Detached)
  end.

(** cuds.py:566-579 [_add_direct] *)
Definition w_link (isW : cls -> bool) (w : wsess) (a : uid) (r : rel) (b : uid)
  : wsess * option exn :=
  w_write isW (fun s => set_gr s (add_direct (gr s) a r b)) w a.
(** cuds.py:761-770 [_remove_direct] *)
Definition w_unlink (isW : cls -> bool) (w : wsess) (a : uid) (r : rel) (b : uid)
  : wsess * option exn :=
  w_write isW (fun s => set_gr s (remove_direct (gr s) a r b)) w a.
(** cuds.py:824-848 [__setattr__] *)
Definition w_set_attr (isW : cls -> bool) (w : wsess) (u : uid) (a : attr) (l : lit)
  : wsess * option exn :=
  w_write isW (fun s => set_attr s u a l) w u.

(** cuds.py:158-203 [add] with arguments of the same session *)
Fixpoint w_add (isW : cls -> bool) (O : onto) (w : wsess) (a : uid) (r : rel) (bs : list uid)
  : wsess * res (list uid) :=
  match bs with
  | [] => (w, Ok [])
  | b :: bs' =>
      match notify_read isW w a with
      | (w0, Some e) => (w0, Err e)
      | (w0, None) =>
          if bool_decide (a ∈ wreg w0) && linked (wgr w0) a r b then (w0, Err ValueError)
          else match w_link isW w0 a r b with
               | (w1, Some e) => (w1, Err e)
               | (w1, None) =>
                   match w_link isW w1 b (o_inv O r) a with
                   | (w2, Some e) => (w2, Err e)
                   | (w2, None) => let '(w3, rv) := w_add isW O w2 a r bs' in
                                   (w3, rmap (cons b) rv)
                   end
               end
      end
  end.

(** cuds.py:591-650 [_get].  An object that turned out to be gone has a private
    graph with its type only (session.py:104-106). *)
Definition w_get_ (isW : cls -> bool) (O : onto) (w : wsess) (a : uid) (uids : list uid)
  (rf : option rel) (oc : option cls) : wsess * res (list (option uid) * rmapping) :=
  match uids, oc with
  | _ :: _, Some _ => (w, Err TypeError)
  | _, _ => match notify_read isW w a with
            | (w1, Some e) => (w1, Err e)
            | (w1, None) =>
                (w1, get_ O (if decide (a ∈ wreg w1) then wgr w1 else ∅) a uids rf oc)
            end
  end.

(** cuds.py:205-244 [get] with 736-759 [_load_cuds_objects] *)
Definition w_get (isW : cls -> bool) (O : onto) (w : wsess) (a : uid) (uids : list uid)
  (rf : option rel) (oc : option cls) : wsess * res gresult :=
  match w_get_ isW O w a uids rf oc with
  | (w1, Err e) => (w1, Err e)
  | (w1, Ok (us, _)) =>
      match wload isW w1 (omap id us) with
      | (w2, Err e) => (w2, Err e)
      | (w2, Ok loaded) =>
          let l := load_back us loaded in
          match uids with
          | [_] => match l with x :: _ => (w2, Ok (One x)) | [] => (w2, Err IndexError) end
          | _ => (w2, Ok (Many l))
          end
      end
  end.

(** cuds.py:328-330, the inner loop of [remove] *)
Fixpoint w_remove_rels (isW : cls -> bool) (O : onto) (w : wsess) (a b : uid)
  (nb : option uid) (rs : list rel) : wsess * option exn :=
  match rs with
  | [] => (w, None)
  | r :: rs' =>
      match w_unlink isW w a r b with
      | (w1, Some e) => (w1, Some e)
      | (w1, None) =>
          match nb with
          | None => (w1, Some AttributeError)
          | Some v => match w_unlink isW w1 v (o_inv O r) a with
                      | (w2, Some e) => (w2, Some e)
                      | (w2, None) => w_remove_rels isW O w2 a b nb rs'
                      end
          end
      end
  end.

(** cuds.py:323-330: the neighbours are loaded one by one. *)
Fixpoint w_remove_all (isW : cls -> bool) (O : onto) (missing : gset uid) (us : list uid)
  (w : wsess) (a : uid) (m : rmapping) : wsess * option exn :=
  match m with
  | [] => (w, None)
  | (b, rs) :: m' =>
      match in_engine (load_next isW missing us b) w with
      | (w1, Err e) => (w1, Some e)
      | (w1, Ok nb) =>
          match w_remove_rels isW O w1 a b nb (elements rs) with
          | (w2, Some e) => (w2, Some e)
          | (w2, None) => w_remove_all isW O missing us w2 a m'
          end
      end
  end.

(** cuds.py:290-330 [remove] *)
Definition w_remove (isW : cls -> bool) (O : onto) (w : wsess) (a : uid) (uids : list uid)
  (rf : option rel) (oc : option cls) : wsess * option exn :=
  match w_get_ isW O w a uids rf oc with
  | (w1, Err e) => (w1, Some e)
  | (w1, Ok (_, [])) => (w1, Some RuntimeError)
  | (w1, Ok (_, m)) =>
      match wroot w1 with
      | None => (w1, Some RuntimeError)
      | Some _ => w_remove_all isW O (list_to_set (missing_uids w1 m.*1)) m.*1
                    (load_prelude w1 m.*1) a m
      end
  end.

(** session.py:81-94 [delete_cuds_object] *)
Definition w_delete (isW : cls -> bool) (O : onto) (w : wsess) (u : uid) : wsess * option exn :=
  match w_get isW O w u [] (Some (o_relationship O)) None with
  | (w1, Err e) => (w1, Some e)
  | (w1, Ok (Many (_ :: _))) =>
      match w_remove isW O w1 u [] (Some (o_relationship O)) None with
      | (w2, Some e) => (w2, Some e)
      | (w2, None) => w_delete_triples w2 u
      end
  | (w1, Ok _) => w_delete_triples w1 u
  end.

(** The graph of a new object: cuds.py:66-81. *)
Definition new_graph (u : uid) (c : cls) (attrs : list (attr * lit)) : graph :=
  {[ (u, TType c) ]} ∪ list_to_set (map (fun al => (u, TAttr (fst al) (snd al))) attrs).

(** triplestore_wrapper_session.py:48-60 [_load_first_level]: the uids it loads
    (the set is iterated in an arbitrary order). *)
Definition first_level (r : uid) (d : graph) : gset uid :=
  ((set_map snd (links d 0%N) : gset uid) ∖ {[0%N]}) ∪ {[r]}.

Fixpoint load_iris (isW : cls -> bool) (us : list uid) (w : wsess) : wsess * option exn :=
  match us with
  | [] => (w, None)
  | u :: us' => match load_iri isW w u with
                | (w1, Err e) => (w1, Some e)
                | (w1, Ok _) => load_iris isW us' w1
                end
  end.

(** cuds.py:40-82 [Cuds.__init__] with db_wrapper_session.py:49-67
    [DbWrapperSession._store]; [order] is the iteration order of the set of
    first-level uids. *)
Definition w_create (isW : cls -> bool) (order : list uid) (w : wsess) (u : uid) (c : cls)
  (attrs : list (attr * lit)) : wsess * option exn :=
  if decide (u = 0%N) then (w, Some ValueError)
  else match w_store isW w u (new_graph u c attrs) with
       | (w1, Some e) => (w1, Some e)
       | (w1, None) =>
           match wroot w with
           | Some _ => (w1, None)
           | None => in_engine (load_iris isW order) w1
           end
       end.

(** ** Commit *)

(** The calls of _add/_remove that a commit makes, in order:
    triplestore_wrapper_session.py:15-39 [_apply_added], [_apply_updated],
    [_apply_deleted]. *)
Inductive dbact := DAdd (ts : graph) | DRemove (u : uid).
Definition run_act (d : graph) (a : dbact) : graph :=
  match a with
  | DAdd ts => d ∪ ts
  | DRemove u => filter (fun t => fst t <> u) d
  end.
Definition out_triples (r : uid) (g : graph) (u : uid) : graph :=
  map_graph (sub_root r) (triples_of g u).
Definition commit_acts (r : uid) (g : graph) (b : bufs) : list dbact :=
  map (fun u => DAdd (out_triples r g u)) (elements (badd b)) ++
  mjoin (map (fun u => [DRemove (sub_root r u); DAdd (out_triples r g u)]) (elements (bupd b))) ++
  map (fun u => DRemove (sub_root r u)) (elements (bdel b)).

(** db_wrapper_session.py:12-29 [commit].  [fail = Some k]: the backend raises in
    its k-th call (counted from 0; the last call is _commit()); then the
    transaction is rolled back, i.e. the backend returns to its state at
    _init_transaction (trusted).  [_check_cardinalities] only checks the root. *)
Definition w_commit (fail : option nat) : wsess -> wsess * option exn :=
  in_engine (fun w =>
    match wroot w with
    | None => (w, Some RuntimeError)
    | Some r =>
        if decide (r ∈ wreg w) then
          let acts := commit_acts r (wgr w) (ub w) in
          match fail with
          | Some k =>
              if decide (k < length acts) then (w, Some BackendError)
              else (set_ub w no_bufs, Some BackendError)
          | None =>
              (expire_all (set_db (set_ub w no_bufs) (foldl run_act (db w) acts)), None)
          end
        else (w, Some KeyError)
    end).

(** ** Histories *)
Inductive wop :=
| WCreate (order : list uid) (u : uid) (c : cls) (attrs : list (attr * lit))
| WAdd (a : uid) (r : rel) (bs : list uid)
| WRemove (a : uid) (uids : list uid) (rf : option rel) (oc : option cls)
| WSetAttr (u : uid) (a : attr) (l : lit)
| WDelete (u : uid)
| WGet (a : uid) (uids : list uid) (rf : option rel) (oc : option cls)
| WLoad (us : list uid)
| WExpire (us : list uid)
| WExpireAll
| WRefresh (us : list uid)
| WCommit (fail : option nat)
| WExternal (d : graph).   (* somebody else changes the backend *)

Definition wstep (isW : cls -> bool) (O : onto) (w : wsess) (o : wop) : wsess :=
  match o with
  | WCreate order u c attrs => fst (w_create isW order w u c attrs)
  | WAdd a r bs => fst (w_add isW O w a r bs)
  | WRemove a uids rf oc => fst (w_remove isW O w a uids rf oc)
  | WSetAttr u a l => fst (w_set_attr isW w u a l)
  | WDelete u => fst (w_delete isW O w u)
  | WGet a uids rf oc => fst (w_get isW O w a uids rf oc)
  | WLoad us => fst (wload isW w us)
  | WExpire us => fst (expire w (list_to_set us))
  | WExpireAll => expire_all w
  | WRefresh us => fst (refresh isW w us)
  | WCommit fail => fst (w_commit fail w)
  | WExternal d => set_db w d
  end.
