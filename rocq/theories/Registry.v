(** The namespace registry and the namespaces as containers.

    Models the access functions of osp/core/ontology/namespace_registry.py and
    osp/core/ontology/namespace.py on top of the lookup of Namespace.v. *)
From Coq Require Import List Arith NArith Bool String.
From Verif Require Import Prelude Utf8 Text Names Namespace.
Import ListNotations.
Local Open Scope list_scope.

(** namespace_registry.py:27-35: the namespaces with a non-empty name, in the order
    of the dictionary ([_get] raises KeyError for a missing name) *)
Definition reg_iter (r : registry) : res (list namespace) :=
  mapM (get_ns r) (filter (fun n => match n with [] => false | _ => true end) (map fst (r_dict r))).

(** namespace_registry.py:51-60 [registry[name]] *)
Definition reg_item (r : registry) (name : str) : res namespace := get_ns r name.

(** namespace_registry.py:37-49 [registry.name] *)
Definition reg_attr (r : registry) (name : str) : res namespace :=
  match get_ns r name with
  | Err KeyError => Err AttributeError
  | x => x
  end.

(** namespace_registry.py:62-72 [name in registry] *)
Definition reg_contains (r : registry) (name : str) : bool :=
  existsb (str_eqb (lower name)) (map fst (r_dict r)).

(** namespace_registry.py:74-87 [registry.get(name, fallback)] *)
Definition reg_get (r : registry) (name : str) (fallback : option namespace) : res (option namespace) :=
  match get_ns r name with
  | Ok n => Ok (Some n)
  | Err KeyError => Ok fallback
  | Err e => Err e
  end.

(** namespace_registry.py:116-119: the attributes of a module ([setattr] is the
    assignment of a dictionary) *)
Definition set_module (m : list (str * namespace)) (l : list namespace) : list (str * namespace) :=
  fold_left (fun m n => dset (lower (n_name n)) n (dset (upper (n_name n)) n m)) l m.
Definition update_module (r : registry) (m : list (str * namespace)) : res (registry * list (str * namespace)) :=
  let r' := update_namespaces r in
  rmap (fun l => (r', set_module m l)) (reg_iter r').

(** namespace.py:48-58 [a == b] for namespaces of one registry *)
Definition ns_eqb (a b : namespace) : bool := str_eqb (n_name a) (n_name b) && str_eqb (n_iri a) (n_iri b).
(** namespace.py:60-62, 32-38: what is hashed *)
Definition ns_hashed (a : namespace) : str := n_name a ++ lit " (" ++ n_iri a ++ lit ")".

(** namespace.py:87-102 [ns.name] *)
Definition ns_attr (r : registry) (n : namespace) (name : str) : res found :=
  match ns_get r n name with
  | Err KeyError => Err AttributeError
  | x => x
  end.
(** namespace.py:246-255 [name in ns]: entities have neither a truth value nor a length of
    their own, so [bool] of one is true *)
Definition ns_contains (r : registry) (n : namespace) (name : str) : res bool :=
  match ns_get r n name with
  | Ok _ => Ok true
  | Err e => Err e
  end.

(** namespace.py:73-81 [ns.get_default_rel()]: the last relationship among the triples, in the
    order of the graph; [from_iri] raises KeyError for one that is not declared.  [cache]:
    [_default_rel], [None] for -1.  The result and the new cache; while the loop is
    interrupted by an exception the cache keeps the last value. *)
Definition p_default_rel : str := lit "http://www.osp-core.com/cuba#_default_rel".
Definition default_rels (r : registry) (n : namespace) : list str :=
  fold_right (fun t acc => match t with
                           | (s, POther p, OIri o) => if str_eqb s (n_iri n) && str_eqb p p_default_rel then o :: acc else acc
                           | _ => acc
                           end) [] (r_graph r).
Fixpoint default_loop (r : registry) (l : list str) (cur : option entity) : res (option entity) * option entity :=
  match l with
  | [] => (Ok cur, cur)
  | o :: l' => match from_iri r all_kinds o None with
               | Ok e => default_loop r l' (Some e)
               | Err x => (Err x, cur)
               end
  end.
Definition get_default_rel (r : registry) (n : namespace) (cache : option (option entity))
  : res (option entity) * option (option entity) :=
  match cache with
  | Some d => (Ok d, cache)
  | None => let '(x, c) := default_loop r (default_rels r n) None in (x, Some c)
  end.
