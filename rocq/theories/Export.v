(** Export and import of objects: osp/core/utils/general.py:57-86, 113-148, 178-246
    (get_rdf_graph, serialize, deserialize), with
    osp/core/session/transport/transport_utils.py:284-342 and
    osp/core/utils/wrapper_development.py:188-232.

    Simplifications: (1) an object is written as the set of its triples and of the
    type triples of the objects it is linked to ([entry] of Buffers.v); that JSON-LD
    and json recover the sets and the uid is C07; (2) [serialize] is for sessions in
    which the objects that are visited can be loaded. *)
From stdpp Require Import base sets list gmap countable.
From Verif Require Import Prelude Cuds Traverse Wrapper Buffers.

(** general.py:178-204 [serialize]; md = None is max_depth=inf. *)
Definition serialize (O : onto) (s : sess) (fuel : nat) (rf : option rel) (md : option nat) (u : uid)
  : option (list entry) :=
  match find_cuds_object (iter_nbrs O s rf) fuel (fun _ => true) true md 0 u ∅ with
  | Some (_, FAll l) => Some (entry_of (gr s) <$> l)
  | _ => None
  end.

(** wrapper_development.py:188-232 [create_from_triples(fix_neighbors=False)] in a
    CoreSession with cuds.py:62-82 [Cuds.__init__] and session.py:36-51 [_store]. *)
Definition receive (t : sess) (e : entry) : sess * res (option uid) :=
  if decide (e_own e = ∅) then (t, Ok None)
  else
    let v := e_uid e in
    if decide (v ∈ reg t) then
      (set_gr t (filter (fun x => fst x <> v) (gr t) ∪ e_own e ∪ e_nb e), Ok (Some v))
    else if decide (v = 0%N) then (t, Err ValueError)
    else (Sess (reg t ∪ {[v]}) (gr t ∪ e_own e ∪ e_nb e)
               (match root t with Some r => Some r | None => Some v end), Ok (Some v)).

(** transport_utils.py:206-208: the elements of a list, one after the other *)
Fixpoint receive_all (t : sess) (l : list entry) : sess * res (list (option uid)) :=
  match l with
  | [] => (t, Ok [])
  | e :: l' => match receive t e with
               | (t1, Err x) => (t1, Err x)
               | (t1, Ok v) => let '(t2, r) := receive_all t1 l' in (t2, rmap (cons v) r)
               end
  end.

(** general.py:207-246 [deserialize] into a CoreSession, with
    only_return_first_element=True *)
Definition deserialize (t : sess) (l : list entry) : sess * res (option uid) :=
  match receive_all t l with
  | (t1, Err x) => (t1, Err x)
  | (t1, Ok (v :: _)) => (t1, Ok v)
  | (t1, Ok []) => (t1, Err IndexError)
  end.

(** The same into a wrapper session: create_from_triples also checks the object and
    notes the change (Buffers.v). *)
Definition deserialize_wrapper (isW : cls -> bool) (w : wsess) (l : list entry) : wsess * res (option uid) :=
  match create_all isW w l with
  | (w1, Some x) => (w1, Err x)
  | (w1, None) => match l with
                  | [] => (w1, Err IndexError)
                  | e :: _ => (w1, Ok (if decide (e_own e = ∅) then None else Some (e_uid e)))
                  end
  end.
