(** Exchange of pending changes between a session and its peer:
    osp/core/session/transport/transport_utils.py:29-121 (serialize_buffers,
    deserialize_buffers), 290-352 (_serializable, _to_cuds_object),
    osp/core/utils/wrapper_development.py:188-232 (create_from_triples) and
    osp/core/session/transport/transport_session_server.py:117-141 (_run_command).

    Simplifications: (1) an object is sent as the set of its triples and the set of
    the type triples of its neighbours; that JSON-LD and json.dumps recover them
    is C07; (2) files are modelled in Files.v (C47); (3) the peer has its root (the
    first object is sent by _init_session). *)
From stdpp Require Import base sets list gmap countable.
From Verif Require Import Prelude Cuds Wrapper.

(** transport_utils.py:284-300 [_serializable]: what is sent for one object *)
Record entry := Entry { e_uid : uid; e_own : graph; e_nb : graph }.
Definition entry_of (g : graph) (u : uid) : entry := Entry u (triples_of g u) (neighbor_types g u).

(** transport_utils.py:56-60, 62: the four lists.  The order is that of Python's
    dictionaries and sets, i.e. arbitrary. *)
Record message := Msg {
  m_add : list entry; m_upd : list entry; m_del : list entry; m_exp : gset uid }.

(** session.py:103-106: the private graph of a deleted object has one type triple *)
Definition tombs (dc : uid -> cls) (us : list uid) : graph :=
  list_to_set (map (fun u => (u, TType (dc u))) us).

(** wrapper_session.py:320-333 [_reset_buffers] of the context *)
Definition buf (w : wsess) (c : ctx) : bufs := match c with USER => ub w | ENGINE => eb w end.
Definition reset (w : wsess) (c : ctx) : wsess :=
  match c with USER => set_ub w no_bufs | ENGINE => set_eb w no_bufs end.

(** transport_utils.py:29-68 [serialize_buffers]; la, lu, ld are the keys of the
    three buffers in the dictionaries' order, dc u is the type that the deleted
    object u had. *)
Definition serialize_buffers (dc : uid -> cls) (la lu ld : list uid) (w : wsess) (c : ctx)
  : wsess * message :=
  (reset w c, Msg (entry_of (wgr w) <$> la) (entry_of (wgr w) <$> lu)
                  (entry_of (tombs dc ld) <$> ld) (expd w)).

(** wrapper_development.py:188-232 [create_from_triples(fix_neighbors=False)].
    The uid is no longer expired when [_notify_read] is called, which therefore
    does nothing. *)
Definition create_from_triples (isW : cls -> bool) (w : wsess) (e : entry) : wsess * option exn :=
  if decide (e_own e = ∅) then (w, None)
  else
    let v := e_uid e in
    let w1 := set_expd w (expd w ∖ {[v]}) in
    let w2 := if decide (v ∈ wreg w1)
              then set_wgr w1 (filter (fun t => fst t <> v) (wgr w1))
              else fst (w_store isW w1 v ∅) in
    let w3 := set_wgr w2 (wgr w2 ∪ e_own e ∪ e_nb e) in
    match store_checks isW (wroot w3) (wgr w3) v with
    | Some x => (w3, Some x)
    | None => notify_update w3 v
    end.

(** transport_utils.py:222-224: the elements of a list one after the other *)
Fixpoint create_all (isW : cls -> bool) (w : wsess) (l : list entry) : wsess * option exn :=
  match l with
  | [] => (w, None)
  | e :: l' => match create_from_triples isW w e with
               | (w1, Some x) => (w1, Some x)
               | (w1, None) => create_all isW w1 l'
               end
  end.

(** transport_utils.py:113-117 *)
Definition forget (w : wsess) (u : uid) : wsess :=
  set_core w (Sess (wreg w ∖ {[u]}) (wgr w) (wroot w)).

(** transport_utils.py:94-117, inside the context manager *)
Definition deserialize_body (isW : cls -> bool) (m : message) (w : wsess) : wsess * option exn :=
  let w0 := fst (expire w (m_exp m)) in
  match create_all isW w0 (m_add m ++ m_upd m ++ m_del m) with
  | (w1, Some x) => (w1, Some x)
  | (w1, None) =>
      let w2 := foldl notify_delete w1 (e_uid <$> m_del m) in
      (foldl forget w2 (e_uid <$> m_del m), None)
  end.

(** buffers.py:113-126 [get_buffer_context_mngr]: only ENGINE changes the context *)
Definition deserialize_buffers (isW : cls -> bool) (c : ctx) (m : message) (w : wsess)
  : wsess * option exn :=
  match c with
  | ENGINE => in_engine (deserialize_body isW m) w
  | USER => deserialize_body isW m w
  end.

(** transport_session_server.py:116-138 [_run_command]: the changes of the client
    are applied before the command runs, its own changes are sent back. *)
Definition run_command (isW : cls -> bool) (run : wsess -> wsess * option exn)
  (dc : uid -> cls) (order : gset uid -> list uid) (m : message) (w : wsess)
  : wsess * res message :=
  match deserialize_buffers isW USER m w with
  | (w1, Some x) => (w1, Err x)
  | (w1, None) =>
      match run w1 with
      | (w2, Some x) => (w2, Err x)
      | (w2, None) =>
          let '(w3, m') := serialize_buffers dc (order (badd (eb w2))) (order (bupd (eb w2)))
                             (order (bdel (eb w2))) w2 ENGINE in
          (w3, Ok m')
      end
  end.
