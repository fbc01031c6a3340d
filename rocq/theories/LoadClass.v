(** Loading objects by class from a database:
    osp/core/session/db/db_wrapper_session.py:31-47 and
    osp/core/session/db/triplestore_wrapper_session.py:61-68, 70-108.

    Simplification: the result is consumed to its end without other calls in between
    (PropQuery.v models the lazy consumption of a result). *)
From stdpp Require Import base sets list gmap countable.
From Verif Require Import Prelude Cuds Wrapper.

(** triplestore_wrapper_session.py:63-67: the uids of the subjects with a class; the
    zero uid stands for the root. *)
Definition class_uids (r : uid) (d : graph) (c : cls) : gset uid :=
  set_map (fun t : triple => sub_zero r (fst t)) (filter (fun t : triple => snd t = TType c) d).

(** triplestore_wrapper_session.py:41-45 [_load_from_backend], each element in an
    engine context of its own (result.py:6-20, buffers.py:84-110). *)
Fixpoint load_each (isW : cls -> bool) (us : list uid) (w : wsess) : wsess * res (list (option uid)) :=
  match us with
  | [] => (w, Ok [])
  | u :: us' =>
      match in_engine (fun w => load_iri isW w u) w with
      | (w1, Err e) => (w1, Err e)
      | (w1, Ok x) => let '(w2, r) := load_each isW us' w1 in (w2, rmap (cons x) r)
      end
  end.

(** The loop db_wrapper_session.py:46-47 over the subclasses of the class (a set,
    enumerated as [subs]); [ord] is the order in which a set of uids is iterated. *)
Fixpoint load_classes (isW : cls -> bool) (ord : gset uid -> list uid) (r : uid) (subs : list cls) (w : wsess)
  : wsess * res (list (option uid)) :=
  match subs with
  | [] => (w, Ok [])
  | c :: subs' =>
      match load_each isW (ord (class_uids r (db w) c)) w with
      | (w1, Err e) => (w1, Err e)
      | (w1, Ok l) => let '(w2, r) := load_classes isW ord r subs' w1 in (w2, rmap (app l) r)
      end
  end.

(** db_wrapper_session.py:31-47 [load_by_oclass] *)
Definition load_by_oclass (isW : cls -> bool) (ord : gset uid -> list uid) (subs : list cls) (w : wsess)
  : wsess * res (list (option uid)) :=
  match wroot w with
  | None => (w, Err RuntimeError)
  | Some r => load_classes isW ord r subs w
  end.
