(** Equality and hashes of cuds objects: osp/core/cuds.py:99-117 [oclasses],
    [oclass], 860-882 [__hash__], [__eq__]; osp/core/ontology/entity.py:44-53, 263-265.

    A handle (a Python object) is a session and a uid ([CudsX.obj]).  The order in
    which rdflib enumerates the types of an object is a parameter, one for every
    session and moment: any order.  [known c] tells whether the namespace registry
    has an entity with the IRI c (namespace_registry.py:137-175).
    Simplification: an entity is its IRI (entity.py:44-53 compares only that). *)
From stdpp Require Import base sets list gmap.
From Verif Require Import Prelude Cuds CudsX.

(** The orders of enumeration, of every session. *)
Definition orders := sid -> uid -> list cls.

Section Model.
  Context (known : cls -> bool).

  (** cuds.py:99-107 [oclasses]; an object without known types gives the empty list *)
  Definition oclasses (e : orders) (o : obj) : list cls :=
    List.filter known (e (o_sid o) (o_uid o)).
  (** cuds.py:109-117 [oclass] *)
  Definition oclass (e : orders) (o : obj) : option cls :=
    match oclasses e o with c :: _ => Some c | [] => None end.
  (** cuds.py:870-882 [__eq__]: self is [a], other is [b] *)
  Definition cuds_eq (e : orders) (a b : obj) : bool :=
    bool_decide (oclass e b = oclass e a) && bool_decide (o_uid a = o_uid b).
  (** cuds.py:860-868 [__hash__]; [h] is the hash of a uuid.UUID *)
  Definition cuds_hash (h : uid -> N) (a : obj) : N := h (o_uid a).

  (** [x in l] for a Python list of handles (tests x == y for the elements y; two
      identical handles are equal anyway). *)
  Definition in_list (e : orders) (a : obj) (l : list obj) : bool :=
    existsb (fun b => cuds_eq e b a) l.
  (** [x in d] for a set or dictionary of handles: the hashes are compared first.
      (Simplification: that they were stored when the element was inserted makes no
      difference, a handle never changes its uid.) *)
  Definition in_set (h : uid -> N) (e : orders) (a : obj) (l : list obj) : bool :=
    existsb (fun b => N.eqb (cuds_hash h b) (cuds_hash h a) && cuds_eq e b a) l.
End Model.

(** ** Specification *)

(** [e] enumerates the types in the sessions of [w], in some order. *)
Definition enumerates (w : world) (e : orders) : Prop :=
  forall k u, e k u ≡ₚ classes (gr (w k)) u.

(** [u] has at most one class that is known. *)
Definition one_class (known : cls -> bool) (s : sess) (u : uid) : Prop :=
  forall c c', (u, TType c) ∈ gr s -> (u, TType c') ∈ gr s -> known c = true -> known c' = true -> c = c'.

(** The object is neither created nor deleted by the operation. *)
Definition lives_through (u : uid) (o : op) : Prop :=
  match o with Create v _ _ => v <> u | Delete v => v <> u | _ => True end.

Fixpoint steps_of (O : onto) (s : sess) (os : list op) : sess :=
  match os with [] => s | o :: os' => steps_of O (step O s o) os' end.
