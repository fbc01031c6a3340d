(** Utility functions on the CUDS objects of one session:
    osp/core/utils/general.py:32-53 (delete_cuds_object_recursively), 249-279
    (remove_cuds_object, get_relationships_between),
    osp/core/utils/simple_search.py:55-149 and osp/core/session/registry.py:142-212.

    As in Cuds.v the session is a core session. *)
From stdpp Require Import base list gmap.
From Verif Require Import Prelude Cuds Traverse.

(** general.py:52-53: the objects found are deleted one after the other. *)
Fixpoint delete_all (O : onto) (s : sess) (l : list uid) : sess * option exn :=
  match l with
  | [] => (s, None)
  | u :: l' => match delete_cuds_object O s u with
               | (s1, None) => delete_all O s1 l'
               | (s1, Some e) => (s1, Some e)
               end
  end.

(** general.py:36-54 [delete_cuds_object_recursively]; None: out of fuel. *)
Definition delete_recursively (O : onto) (fuel : nat) (s : sess) (u : uid) (rf : option rel) (md : option nat)
  : option (sess * option exn) :=
  match find_cuds_object (iter_nbrs O s rf) fuel (fun _ => true) true md 0 u ∅ with
  | Some (_, FAll l) => Some (delete_all O s l)
  | _ => None
  end.

(** general.py:249-261 [remove_cuds_object].  The neighbours are collected before
    the first one is handed out (cuds.py:365-369); in a core session their loading
    does not depend on the links removed meanwhile. *)
Fixpoint remove_each (O : onto) (s : sess) (a : uid) (l : list uid) : sess * option exn :=
  match l with
  | [] => (s, None)
  | b :: l' => match remove O s a [b] (Some (o_relationship O)) None with
               | (s1, None) => remove_each O s1 a l'
               | (s1, Some e) => (s1, Some e)
               end
  end.
Definition remove_cuds_object (O : onto) (s : sess) (a : uid) : sess * option exn :=
  remove_each O s a (iter_nbrs O s (Some (o_relationship O)) a).

(** general.py:264-279 [get_relationships_between] *)
Definition relationships_between (s : sess) (a b : uid) : gset rel :=
  list_to_set (filter (fun r => linked (gr s) a r b = true) (rels_of (gr s) a)).

(** simple_search.py:125-140 and registry.py:200-210: the criterion of
    [find_relationships] and [filter_by_relationships].  NeighborDictRel has no
    __contains__: Python compares with every key. *)
Definition has_relationship (O : onto) (s : sess) (r : rel) (subs : bool) (u : uid) : bool :=
  if subs then existsb (fun q => o_sub O q r) (rels_of (gr s) u)
  else bool_decide (r ∈ rels_of (gr s) u).

(** cuds.py:146-156 [is_a] *)
Definition is_a (O : onto) (s : sess) (c : cls) (u : uid) : bool :=
  existsb (fun d => o_csub O d c) (classes (gr s) u).

(** simple_search.py:98-120, registry.py:174-186: the criterion hasattr(x, name) and
    getattr(x, name) == value with cuds.py:793-824 [__getattr__]: [named] is
    get_attribute_by_argname(name) of the object's (first) class, [eqv] compares the
    Python value of a literal with the given one.  rdflib's Graph.value returns one
    of the values.  Simplification: the object is not a wrapper (for which getattr
    falls back to the attributes of the session). *)
Definition attr_equals (s : sess) (named : cls -> option attr) (eqv : lit -> bool) (u : uid) : bool :=
  match head (classes (gr s) u) with
  | None => false
  | Some c => match named c with
              | None => false
              | Some a => match attr_values (gr s) u a with
                          | x :: _ => eqv x
                          | [] => false
                          end
              end
  end.

(** simple_search.py:101-149: search below a root. *)
Definition find_all_below (O : onto) (fuel : nat) (s : sess) (rf : option rel) (crit : uid -> bool) (u : uid)
  : option (list uid) :=
  match find_cuds_object (iter_nbrs O s rf) fuel crit true None 0 u ∅ with
  | Some (_, FAll l) => Some l
  | _ => None
  end.

(** registry.py:142-160 [filter] *)
Definition reg_filter (s : sess) (crit : uid -> bool) : list uid := filter (fun u => crit u = true) (elements (reg s)).
(** registry.py:160-170 [filter_by_oclass] with cuds.py:107-113 [oclass]: the first
    class in the order of the graph. *)
Definition filter_by_oclass (s : sess) (c : cls) : list uid :=
  reg_filter s (fun u => bool_decide (head (classes (gr s) u) = Some c)).
