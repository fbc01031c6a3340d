(** A session on a server, used through a TransportSessionClient:
    osp/core/session/transport/transport_session_client.py (_store, _load_from_backend,
    _send, _receive, __getattr__), transport_session_server.py (_load_from_session,
    _run_command, _init_session) and wrapper_session.py:71-158, 293-301 (load, refresh,
    _notify_read) as they run in the client.

    The state is the pair of the client's session and the server's session.  The
    server's session is a session with a triple store (Wrapper.v).
    Simplifications: (1) as in Buffers.v, an object is sent as the set of its
    triples and the types of its neighbours; the text level is C01-C03 and C07, files
    are C47; (2) the client has no backend of its own: no definition of this file
    reads the field [db] of the client's session, in which the model notes what the
    server's session holds (C63_noted); (3) QueryResult is
    consumed at once except where the code interleaves (Cuds.remove);
    (4) [order] is the iteration order of Python's dictionaries. *)
From stdpp Require Import base sets list gmap countable.
From Verif Require Import Prelude Cuds Wrapper Buffers.

Notation rsys := (wsess * wsess)%type.

(** An exception of f on the client's session, inside [with EngineContext(client)]
    (buffers.py:57-81, 96-104). *)
Definition r_in_engine {A} (f : rsys -> rsys * A) (s : rsys) : rsys * A :=
  let '(w', (p', a)) := in_engine (fun w => let '((w1, p1), a) := f (w, snd s) in (w1, (p1, a))) (fst s) in
  ((w', p'), a).

Section remote.
  Context (isW : cls -> bool) (O : onto) (dc : uid -> cls) (order : gset uid -> list uid).

  (** transport_session_server.py:140-160 [_load_from_session] with
      transport_utils.py:92-99 (the uids that the client considers expired, expired
      also here) and 29-68 (the answer). *)
  Definition serve_load (exp : gset uid) (us : list uid) (p : wsess)
    : wsess * res (message * list (option entry)) :=
    match wload isW (fst (expire p exp)) us with
    | (p1, Err e) => (p1, Err e)
    | (p1, Ok l) =>
        let '(p2, m) := serialize_buffers dc (order (badd (eb p1))) (order (bupd (eb p1)))
                          (order (bdel (eb p1))) p1 ENGINE in
        (p2, Ok (m, map (option_map (entry_of (wgr p1))) l))
    end.

  (** transport_utils.py:91-121 [deserialize_buffers] of an answer with a result, which
      is the last key of the dictionary; inside the context manager. *)
  Definition receive_body (m : message) (l : list (option entry)) (w : wsess) : wsess * option exn :=
    let w0 := fst (expire w (m_exp m)) in
    match create_all isW w0 (m_add m ++ m_upd m ++ m_del m ++ omap id l) with
    | (w1, Some x) => (w1, Some x)
    | (w1, None) =>
        let w2 := foldl notify_delete w1 (e_uid <$> m_del m) in
        (foldl forget w2 (e_uid <$> m_del m), None)
    end.

  (** transport_session_client.py:103-111 [_load_from_backend], 134-158 [_receive]
      (an error of the server is raised again as RuntimeError). *)
  Definition request_load (expired : gset uid) (us : list uid) (s : rsys)
    : rsys * res (list (option uid)) :=
    let '(w, p) := s in
    let exp := if decide (expired = ∅) then expd w else expired in
    match serve_load exp us p with
    | (p', Err _) => ((w, p'), Err RuntimeError)
    | (p', Ok (m, l)) =>
        match in_engine (receive_body m l) w with
        | (w', Some e) => ((w', p'), Err e)
        | (w', None) => ((w', p'), Ok (map (option_map e_uid) l))
        end
    end.

  (** The generator [missing] of wrapper_session.py:92: not started yet, or the
      elements still to come.  All missing uids are requested at once. *)
  Notation gen := (option (list (option uid))).

  (** wrapper_session.py:100-111: one missing uid, with 362-395 [_get_next_missing],
      [_expire_neighour_diff].  The old version is looked up before the request. *)
  Definition r_missing (expired : gset uid) (miss us : list uid) (u : uid) (g : gen) (s : rsys)
    : rsys * (gen * res (option uid)) :=
    let old := bool_decide (u ∈ wreg (fst s)) in
    let old_links := links (wgr (fst s)) u in
    match (match g with Some l => (s, Ok l) | None => request_load expired miss s end) with
    | (s1, Err e) => (s1, (g, Err e))
    | ((w1, p1), Ok l) =>
        let new := match l with x :: _ => x | [] => None end in
        let g1 := Some (tail l) in
        let new_links := match new with Some v => links (wgr w1) v | None => ∅ end in
        let diff := set_map snd ((new_links ∖ old_links) ∪ (old_links ∖ new_links)) ∖ list_to_set us in
        let w2 := if old then fst (expire w1 diff) else w1 in
        if old && bool_decide (new = None) && bool_decide (u ∈ wreg w2) then
          match w_delete_triples w2 u with
          | (w3, Some e) => ((w3, p1), (g1, Err e))
          | (w3, None) => ((w3, p1), (g1, Ok None))
          end
        else ((w2, p1), (g1, Ok new))
    end.

  (** One iteration of the loop wrapper_session.py:93-111. *)
  Definition r_next (expired : gset uid) (miss us : list uid) (u : uid) (g : gen) (s : rsys)
    : rsys * (gen * res (option uid)) :=
    if decide (u ∈ miss) then r_missing expired miss us u g s
    else if decide (u ∈ wreg (fst s)) then (s, (g, Ok (Some u))) else (s, (g, Err KeyError)).

  (** The loop; every element is produced in its own engine context. *)
  Fixpoint r_loop (expired : gset uid) (miss us todo : list uid) (g : gen) (s : rsys)
    : rsys * res (list (option uid)) :=
    match todo with
    | [] => (s, Ok [])
    | u :: todo' =>
        match r_in_engine (r_next expired miss us u g) s with
        | (s1, (_, Err e)) => (s1, Err e)
        | (s1, (g1, Ok x)) => let '(s2, r) := r_loop expired miss us todo' g1 s1 in
                              (s2, rmap (cons x) r)
        end
    end.

  (** wrapper_session.py:71-111 [load] in the client *)
  Definition r_load (s : rsys) (us : list uid) : rsys * res (list (option uid)) :=
    let '(w, p) := s in
    match wroot w with
    | None => (s, Err RuntimeError)
    | Some _ => r_loop (list_to_set us ∩ expd w) (missing_uids w us) us us None (load_prelude w us, p)
    end.

  (** wrapper_session.py:145-158 [refresh] *)
  Definition r_refresh (s : rsys) (us : list uid) : rsys * option exn :=
    match us with
    | [] => (s, None)
    | _ => let '(w1, ids) := expire (fst s) (list_to_set us) in
           match r_load (w1, snd s) (elements ids) with
           | (s2, Err e) => (s2, Some e)
           | (s2, Ok _) => (s2, None)
           end
    end.

  (** wrapper_session.py:293-301 [_notify_read] *)
  Definition r_notify_read (s : rsys) (u : uid) : rsys * option exn :=
    if decide (u ∈ expd (fst s)) then r_refresh s [u] else (s, None).

  (** ** The user's operations, as in Wrapper.v but with the client's loading *)

  (** neighbor_dict.py:38-61, cuds.py:824-848 *)
  Definition r_write (f : sess -> sess) (s : rsys) (u : uid) : rsys * option exn :=
    match r_notify_read s u with
    | (s1, Some e) => (s1, Some e)
    | ((w1, p1), None) =>
        if decide (u ∈ wreg w1) then
          let '(w2, e) := notify_update (set_core w1 (f (core w1))) u in ((w2, p1), e)
        else ((w1, p1), Some Detached)
    end.
  Definition r_link (s : rsys) (a : uid) (r : rel) (b : uid) : rsys * option exn :=
    r_write (fun c => set_gr c (add_direct (gr c) a r b)) s a.
  Definition r_unlink (s : rsys) (a : uid) (r : rel) (b : uid) : rsys * option exn :=
    r_write (fun c => set_gr c (remove_direct (gr c) a r b)) s a.
  Definition r_set_attr (s : rsys) (u : uid) (a : attr) (l : lit) : rsys * option exn :=
    r_write (fun c => set_attr c u a l) s u.

  (** cuds.py:158-203 [add] *)
  Fixpoint r_add (s : rsys) (a : uid) (r : rel) (bs : list uid) : rsys * res (list uid) :=
    match bs with
    | [] => (s, Ok [])
    | b :: bs' =>
        match r_notify_read s a with
        | (s0, Some e) => (s0, Err e)
        | (s0, None) =>
            if bool_decide (a ∈ wreg (fst s0)) && linked (wgr (fst s0)) a r b then (s0, Err ValueError)
            else match r_link s0 a r b with
                 | (s1, Some e) => (s1, Err e)
                 | (s1, None) =>
                     match r_link s1 b (o_inv O r) a with
                     | (s2, Some e) => (s2, Err e)
                     | (s2, None) => let '(s3, rv) := r_add s2 a r bs' in
                                     (s3, rmap (cons b) rv)
                     end
                 end
        end
    end.

  (** cuds.py:591-650 [_get] *)
  Definition r_get_ (s : rsys) (a : uid) (uids : list uid) (rf : option rel) (oc : option cls)
    : rsys * res (list (option uid) * rmapping) :=
    match uids, oc with
    | _ :: _, Some _ => (s, Err TypeError)
    | _, _ => match r_notify_read s a with
              | (s1, Some e) => (s1, Err e)
              | (s1, None) =>
                  (s1, get_ O (if decide (a ∈ wreg (fst s1)) then wgr (fst s1) else ∅) a uids rf oc)
              end
    end.

  (** cuds.py:205-244 [get] *)
  Definition r_get (s : rsys) (a : uid) (uids : list uid) (rf : option rel) (oc : option cls)
    : rsys * res gresult :=
    match r_get_ s a uids rf oc with
    | (s1, Err e) => (s1, Err e)
    | (s1, Ok (us, _)) =>
        match r_load s1 (omap id us) with
        | (s2, Err e) => (s2, Err e)
        | (s2, Ok loaded) =>
            let l := load_back us loaded in
            match uids with
            | [_] => match l with x :: _ => (s2, Ok (One x)) | [] => (s2, Err IndexError) end
            | _ => (s2, Ok (Many l))
            end
        end
    end.

  (** cuds.py:328-330 *)
  Fixpoint r_remove_rels (s : rsys) (a b : uid) (nb : option uid) (rs : list rel) : rsys * option exn :=
    match rs with
    | [] => (s, None)
    | r :: rs' =>
        match r_unlink s a r b with
        | (s1, Some e) => (s1, Some e)
        | (s1, None) =>
            match nb with
            | None => (s1, Some AttributeError)
            | Some v => match r_unlink s1 v (o_inv O r) a with
                        | (s2, Some e) => (s2, Some e)
                        | (s2, None) => r_remove_rels s2 a b nb rs'
                        end
            end
        end
    end.

  (** cuds.py:323-330: the neighbours are produced one by one. *)
  Fixpoint r_remove_all (expired : gset uid) (miss us : list uid) (g : gen) (s : rsys) (a : uid)
    (m : rmapping) : rsys * option exn :=
    match m with
    | [] => (s, None)
    | (b, rs) :: m' =>
        match r_in_engine (r_next expired miss us b g) s with
        | (s1, (_, Err e)) => (s1, Some e)
        | (s1, (g1, Ok nb)) =>
            match r_remove_rels s1 a b nb (elements rs) with
            | (s2, Some e) => (s2, Some e)
            | (s2, None) => r_remove_all expired miss us g1 s2 a m'
            end
        end
    end.

  (** cuds.py:290-330 [remove] *)
  Definition r_remove (s : rsys) (a : uid) (uids : list uid) (rf : option rel) (oc : option cls)
    : rsys * option exn :=
    match r_get_ s a uids rf oc with
    | (s1, Err e) => (s1, Some e)
    | (s1, Ok (_, [])) => (s1, Some RuntimeError)
    | ((w1, p1), Ok (_, m)) =>
        match wroot w1 with
        | None => ((w1, p1), Some RuntimeError)
        | Some _ => r_remove_all (list_to_set m.*1 ∩ expd w1) (missing_uids w1 m.*1) m.*1 None
                      (load_prelude w1 m.*1, p1) a m
        end
    end.

  (** session.py:81-94 [delete_cuds_object] *)
  Definition r_delete (s : rsys) (u : uid) : rsys * option exn :=
    match r_get s u [] (Some (o_relationship O)) None with
    | (s1, Err e) => (s1, Some e)
    | (s1, Ok (Many (_ :: _))) =>
        match r_remove s1 u [] (Some (o_relationship O)) None with
        | (s2, Some e) => (s2, Some e)
        | ((w2, p2), None) => let '(w3, e) := w_delete_triples w2 u in ((w3, p2), e)
        end
    | ((w1, p1), Ok _) => let '(w2, e) := w_delete_triples w1 u in ((w2, p1), e)
    end.

  (** cuds.py:40-82 with transport_session_client.py:75-93 [_store] of a client whose
      root is set: a local operation. *)
  Definition r_create (s : rsys) (u : uid) (c : cls) (attrs : list (attr * lit)) : rsys * option exn :=
    let '(w', e) := w_create isW [] (fst s) u c attrs in ((w', snd s), e).

  (** transport_session_client.py:113-132, 178-201 and transport_session_server.py:116-138
      with the method commit(), db_wrapper_session.py:12-29: it consumes the buffers. *)
  Definition r_commit (s : rsys) : rsys * option exn :=
    let '(w, p) := s in
    let '(w1, m) := serialize_buffers dc (order (badd (ub w))) (order (bupd (ub w)))
                      (order (bdel (ub w))) w USER in
    match run_command isW (w_commit None) dc order m p with
    | (p', Err _) => ((w1, p'), Some RuntimeError)
    | (p', Ok m') => let '(w2, e) := deserialize_buffers isW ENGINE m' w1 in
                     ((set_db w2 (db p'), p'), e)
    end.

  (** transport_session_server.py:162-200 [_init_session] of a session on the triple
      store d: the entry e of the root is created in the new session,
      wrapper_development.py:188-232 [create_from_triples] with
      db_wrapper_session.py:49-67 [_store] of the first object; [first] is the
      iteration order of the first level. *)
  Definition serve_init (first : list uid) (e : entry) (d : graph) : wsess * res message :=
    let v := e_uid e in
    match in_engine (load_iris isW first) (fst (w_store isW (w_empty d) v ∅)) with
    | (p1, Some x) => (p1, Err x)
    | (p1, None) =>
        let p2 := set_wgr p1 (wgr p1 ∪ e_own e ∪ e_nb e) in
        match store_checks isW (wroot p2) (wgr p2) v with
        | Some x => (p2, Err x)
        | None =>
            match notify_update p2 v with
            | (p3, Some x) => (p3, Err x)
            | (p3, None) =>
                let '(p4, m) := serialize_buffers dc (order (badd (eb p3))) (order (bupd (eb p3)))
                                  (order (bdel (eb p3))) p3 ENGINE in
                (p4, Ok m)
            end
        end
    end.

  (** cuds.py:40-82 of the root with transport_session_client.py:75-93 [_store] in a new
      client of a server whose backend is d. *)
  Definition r_connect (first : list uid) (d : graph) (u : uid) (c : cls) (attrs : list (attr * lit))
    : rsys * option exn :=
    let ng := new_graph u c attrs in
    if decide (u = 0%N) then ((w_empty ∅, w_empty d), Some ValueError)
    else match w_store isW (w_empty ∅) u ng with
    | (w1, Some x) => ((w1, w_empty d), Some x)
    | (w1, None) =>
        match serve_init first (entry_of ng u) d with
        | (p, Err _) => ((w1, p), Some RuntimeError)
        | (p, Ok m) =>
            match deserialize_buffers isW ENGINE m w1 with
            | (w2, Some x) => ((w2, p), Some x)
            | (w2, None) =>
                let b := cur_buf w2 in
                ((set_db (set_cur_buf w2 (Bufs (badd b ∖ {[u]}) (bupd b) (bdel b)))
                         (d ∪ map_graph (sub_root u) ng), p), None)
            end
        end
    end.
End remote.
