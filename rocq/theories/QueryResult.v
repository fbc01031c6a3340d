(** Query results: osp/core/session/result.py:22-121.

    The iterator delivered by the backend is a finite list of elements not yet
    produced; an element may be None (a uid without object).  The effect of
    fetching on the session's buffers is in Buffers.v. *)
From stdpp Require Import base list.
From Verif Require Import Prelude.

Section Model.
  Context {A : Type} `{EqDecision A}.

  (** [q_elems] = self._elements, [q_rest] = what self._iterator will deliver. *)
  Record qres := Q { q_elems : list (option A); q_rest : list (option A) }.

  (** result.py:24-33 *)
  Definition q_init (src : list (option A)) : qres := Q [] src.

  (** buffers.py:97-104 [EngineContextIterator.__next__] and append. *)
  Definition q_pull (q : qres) : option (option A * qres) :=
    match q_rest q with
    | [] => None
    | x :: r => Some (x, Q (q_elems q ++ [x]) r)
    end.

  (** result.py:45-53 [__next__] *)
  Definition q_next (q : qres) : qres * res (option A) :=
    match q_pull q with
    | None => (q, Err StopIteration)
    | Some (x, q') => (q', Ok x)
    end.

  (** result.py:68-74 [all] *)
  Definition q_all (q : qres) : qres * list (option A) :=
    let es := q_elems q ++ q_rest q in (Q es [], es).

  (** result.py:55-64 [__contains__] *)
  Definition q_contains (q : qres) (x : option A) : qres * bool :=
    let '(q', l) := q_all q in (q', bool_decide (x ∈ l)).

  (** result.py:76-87 [first] *)
  Definition q_first (q : qres) : qres * option A :=
    match q_elems q with
    | x :: _ => (q, x)
    | [] => match q_pull q with
            | None => (q, None)
            | Some (x, q') => (q', x)
            end
    end.

  (** result.py:89-118 [one] *)
  Definition q_one (q : qres) (raise_empty : bool) : qres * res (option A) :=
    let '(q1, x) := q_first q in
    if (1 <? length (q_elems q1))%nat then (fst (q_all q1), Err MultipleResultsError)
    else match q_pull q1 with
         | Some (_, q2) => (fst (q_all q2), Err MultipleResultsError)
         | None => match x with
                   | None => if raise_empty then (q1, Err ResultEmptyError) else (q1, Ok None)
                   | Some _ => (q1, Ok x)
                   end
         end.

  (** result.py:34-43 [__iter__]: a generator is first at an index of the list of
      elements, then pulls from the iterator, then is finished. *)
  Inductive gen := GElems (i : nat) | GIter | GDone.
  Definition gen_new : gen := GElems 0.
  Definition pull_gen (q : qres) : qres * gen * option (option A) :=
    match q_pull q with
    | None => (q, GDone, None)
    | Some (x, q') => (q', GIter, Some x)
    end.
  Definition gen_next (q : qres) (g : gen) : qres * gen * option (option A) :=
    match g with
    | GDone => (q, GDone, None)
    | GIter => pull_gen q
    | GElems i => match q_elems q !! i with
                  | Some x => (q, GElems (S i), Some x)
                  | None => pull_gen q
                  end
    end.

  (** A loop over a fresh iterator, nothing else happening in between. *)
  Fixpoint drain (fuel : nat) (q : qres) (g : gen) : qres * list (option A) :=
    match fuel with
    | O => (q, [])
    | S fuel => match gen_next q g with
                | (q', _, None) => (q', [])
                | (q', g', Some x) => let '(q'', l) := drain fuel q' g' in (q'', x :: l)
                end
    end.

  (** Histories: calls and steps of iterators, in any order.  [gens] are the
      iterators created so far. *)
  Inductive qop := QNext | QAll | QFirst | QOne (b : bool) | QContains (x : option A)
                 | QIter | QStep (k : nat).
  Definition qstep (s : qres * list gen) (o : qop) : qres * list gen :=
    let '(q, gs) := s in
    match o with
    | QNext => (fst (q_next q), gs)
    | QAll => (fst (q_all q), gs)
    | QFirst => (fst (q_first q), gs)
    | QOne b => (fst (q_one q b), gs)
    | QContains x => (fst (q_contains q x), gs)
    | QIter => (q, gs ++ [gen_new])
    | QStep k => match gs !! k with
                 | None => (q, gs)
                 | Some g => let '(q', g', _) := gen_next q g in (q', <[k := g']> gs)
                 end
    end.
End Model.
Arguments qres : clear implicits.
Arguments qop : clear implicits.
