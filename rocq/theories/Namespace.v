(** Namespaces and entity lookup.

    Models osp/core/ontology/namespace.py, osp/core/ontology/namespace_registry.py,
    osp/core/ontology/entity.py:25-74 and rdflib's prefix bindings
    (rdflib.namespace.NamespaceManager.bind, in-memory store).

    An IRI and a name are strings.  The graph is the list of its triples in the
    order in which rdflib iterates over them; the theorems hold for every
    order.  Predicates are abstracted to the four kinds the code looks at. *)
From Coq Require Import List Arith NArith Lia Bool String.
From Verif Require Import Prelude Utf8 Text Names.
Import ListNotations.
Local Open Scope nat_scope.
Local Open Scope list_scope.

Inductive kind := Attribute | Relationship | Class.
Inductive pred := PType | PPrefLabel | PRefByLabel | POther (iri : str).
Inductive obj :=
| OKind (k : kind)               (* owl:DatatypeProperty / owl:ObjectProperty / owl:Class *)
| OIri (iri : str)
| OLit (text : str) (lang : option str)
| OTrue.                         (* the boolean literal true *)

Definition triple := (str * pred * obj)%type.

(** ** Prefix bindings of rdflib *)

(** the [__namespace] dictionary of the store: prefix -> IRI, in insertion order *)
Definition bindings := list (str * str).

(** dictionary assignment: the position of an existing key is kept *)
Fixpoint dset {A} (k : str) (v : A) (l : list (str * A)) : list (str * A) :=
  match l with
  | [] => [(k, v)]
  | (k', v') :: l' => if str_eqb k k' then (k', v) :: l' else (k', v') :: dset k v l'
  end.

(** The store of rdflib: [__namespace] (prefix -> IRI) and [__prefix]
    (IRI -> prefix).  IOMemory.bind sets both, nothing ever deletes. *)
Record store := Store { st_ns : bindings; st_prefix : bindings }.
Definition store_bind (p iri : str) (st : store) : store :=
  Store (dset p iri (st_ns st)) (dset iri p (st_prefix st)).

(** first [prefix ++ num], num = n, n+1, ..., that is free or bound to [iri];
    among [length b + 1] candidates one is free, so [fuel] suffices *)
Fixpoint free_prefix (fuel : nat) (p iri : str) (n : N) (b : bindings) : option str :=
  match fuel with
  | O => None
  | S fuel' =>
      let q := p ++ dec n in
      match assoc q b with
      | None => Some q
      | Some i => if str_eqb i iri then None   (* already bound to this IRI: return *)
                  else free_prefix fuel' p iri (N.succ n) b
      end
  end.

(** NamespaceManager.bind(prefix, namespace, override=True, replace=False), as
    called by Graph.bind in namespace_registry.py:272,281.  [if bound_namespace]
    is false for the empty IRI. *)
Definition ns_bind (p iri : str) (st : store) : store :=
  match assoc p (st_ns st) with
  | Some (x :: i) =>
      if str_eqb (x :: i) iri then
        match assoc iri (st_prefix st) with
        | Some q => if str_eqb q p then st else store_bind p iri st
        | None => store_bind p iri st
        end
      else
        let p' := match p with [] => lit "default" | _ => p end in
        match free_prefix (S (List.length (st_ns st))) p' iri 1 (st_ns st) with
        | Some q => store_bind q iri st
        | None => st
        end
  | _ => match assoc iri (st_prefix st) with
         | Some q => if str_eqb q p then st else store_bind p iri st
         | None => store_bind p iri st
         end
  end.

(** ** The registry *)
Record registry := Reg {
  r_store : store;                     (* _graph.namespace_manager *)
  r_dict : list (str * str);           (* _namespaces: lower-case name -> IRI *)
  r_graph : list triple                (* _graph *)
}.

(** namespace_registry.py:108-115 (the [modules] are not modelled) *)
Definition update_namespaces (r : registry) : registry :=
  Reg (r_store r)
      (fold_left (fun d nb => dset (lower (fst nb)) (snd nb) d) (st_ns (r_store r)) [])
      (r_graph r).

(** an [OntologyNamespace] *)
Record namespace := Ns { n_name : str; n_iri : str; n_by_label : bool }.

Definition kind_eqb (a b : kind) : bool :=
  match a, b with
  | Attribute, Attribute | Relationship, Relationship | Class, Class => true
  | _, _ => false
  end.
Definition ostr_eqb (a b : option str) : bool :=
  match a, b with
  | None, None => true
  | Some x, Some y => str_eqb x y
  | _, _ => false
  end.

(** namespace_registry.py:196-211 *)
Definition by_label (r : registry) (ns_iri : str) : bool :=
  existsb (fun t => match t with
                    | (s, PRefByLabel, OTrue) => str_eqb s ns_iri
                    | _ => false
                    end) (r_graph r).

(** namespace_registry.py:89-106 *)
Definition get_ns (r : registry) (name : str) : res namespace :=
  match assoc (lower name) (r_dict r) with
  | Some iri => Ok (Ns (lower name) iri (by_label r iri))
  | None => Err KeyError
  end.

(** [n]'s first binding with a non-empty name whose IRI is a prefix,
    namespace_registry.py:186-188 *)
Fixpoint first_prefix (iri : str) (b : bindings) : option (str * str) :=
  match b with
  | [] => None
  | (n, i) :: b' => if startswith i iri && negb (str_eqb n []) then Some (n, i)
                    else first_prefix iri b'
  end.

Definition hash : N := 35%N.
Definition slash : N := 47%N.

(** [l[:-1]] *)
Definition but_last {A} (l : list A) : list A := removelast l.

(** namespace_registry.py:177-194 *)
Definition ns_of_iri (r : registry) (iri : str) : str * str :=
  match first_prefix iri (st_ns (r_store r)) with
  | Some p => p
  | None =>
      let ns := if existsb (N.eqb hash) iri
                then hd [] (split_on hash iri) ++ [hash]
                else join_with [slash] (but_last (split_on slash iri)) ++ [slash] in
      (ns, ns)
  end.

(** an [OntologyEntity]: entity.py:25-28, 61-64 *)
Record entity := Ent { e_kind : kind; e_ns : str; e_name : str; e_suffix : str }.
Definition e_iri (e : entity) : str := e_ns e ++ e_suffix e.

(** [graph.value(s, skos:prefLabel).toPython()]: AttributeError when there is none;
    the first match otherwise.  A non-literal label is not modelled (TypeError). *)
Fixpoint pref_label (g : list triple) (s : str) : res str :=
  match g with
  | [] => Err AttributeError
  | (s', PPrefLabel, o) :: g' =>
      if str_eqb s' s then match o with OLit t _ => Ok t | _ => Err TypeError end
      else pref_label g' s
  | _ :: g' => pref_label g' s
  end.

(** namespace_registry.py:162-172: the first type that is allowed *)
Fixpoint first_kind (g : list triple) (allow : list kind) (iri : str) : option kind :=
  match g with
  | [] => None
  | (s, PType, OKind k) :: g' =>
      if str_eqb s iri && existsb (kind_eqb k) allow then Some k
      else first_kind g' allow iri
  | _ :: g' => first_kind g' allow iri
  end.

Definition all_kinds : list kind := [Attribute; Relationship; Class].

(** namespace_registry.py:137-175 with [raise_error=True] *)
Definition from_iri (r : registry) (allow : list kind) (iri : str) (name : option str) : res entity :=
  let ns_iri := snd (ns_of_iri r iri) in
  match (match name with
         | Some n => Ok n
         | None => if by_label r ns_iri then pref_label (r_graph r) iri
                   else Ok (after ns_iri iri)
         end) with
  | Err e => Err e
  | Ok n => match first_kind (r_graph r) allow iri with
            | Some k => Ok (Ent k ns_iri n (after ns_iri iri))
            | None => Err KeyError
            end
  end.

(** namespace_registry.py:121-135 *)
Definition namespace_from_iri (r : registry) (iri : str) : namespace :=
  let '(nm, i) := ns_of_iri r iri in
  match assoc nm (r_dict r) with
  | Some _ => match get_ns r nm with Ok n => n | Err _ => Ns nm i (by_label r i) end
  | None => Ns nm i (by_label r i)
  end.
(** entity.py:71-74 *)
Definition entity_namespace (r : registry) (e : entity) : namespace := namespace_from_iri r (e_ns e).

(** What a lookup by name gives: an entity, or the inverse of a relationship
    (computed by [OntologyRelationship.inverse], modelled in Inverse.v). *)
Inductive found := Found (e : entity) | InverseOf (e : entity).

Definition inverse_prefix : str := lit "INVERSE_OF_".

(** namespace.py:116-131, the subjects labelled [label]@en (in the namespace) *)
Definition labelled (r : registry) (n : namespace) (label : str) (lang : option str) : list str :=
  flat_map (fun t => match t with
                     | (s, PPrefLabel, OLit l g) =>
                         if str_eqb l label && ostr_eqb g lang && startswith (n_iri n) s
                         then [after (n_iri n) s] else []
                     | _ => []
                     end) (r_graph r).

(** namespace.py:150-170 around [do_get] with [_case_sensitive=True] and a
    non-empty [_force_by_iri]: the second attempt asks for the same IRI *)
Definition get_forced (r : registry) (n : namespace) (name suffix : str) : res found :=
  match from_iri r all_kinds (n_iri n ++ suffix) (Some name) with
  | Ok e => Ok (Found e)
  | Err KeyError =>
      if startswith inverse_prefix name then
        match from_iri r all_kinds (n_iri n ++ suffix) (Some (after inverse_prefix name)) with
        | Ok e => match e_kind e with Relationship => Ok (InverseOf e) | _ => Err AttributeError end
        | Err e => Err e
        end
      else Err KeyError
  | Err e => Err e
  end.

(** namespace.py:104-131, [ns[label]] for a [str] label (lang "en").
    An entity whose IRI is the namespace IRI itself has the empty suffix, which
    is falsy: in a namespace referenced by label [_do_get] then calls [self[...]]
    again, endlessly (RecursionError); otherwise [_get("", True, "")] asks for the
    namespace IRI itself. *)
Definition item_one (r : registry) (n : namespace) (label suffix : str) : res found :=
  let name := if n_by_label n then label else suffix in
  match suffix with
  | [] => if n_by_label n then Err RecursionError
          else get_forced r n name []
  | _ => get_forced r n name suffix
  end.
Definition get_item (r : registry) (n : namespace) (label : str) (lang : option str) : res (list found) :=
  match mapM (item_one r n label) (labelled r n label lang) with
  | Err e => Err e
  | Ok [] => Err KeyError
  | Ok l => Ok l
  end.

(** namespace.py:172-193 for [_force_by_iri=False]; [cs] is [_case_sensitive] and
    [retry] the case-insensitive attempt (namespace.py:195-229) *)
Definition do_get_with (retry : str -> res found) (r : registry) (n : namespace) (cs : bool) (name : str)
    : res found :=
  if n_by_label n then
    match get_item r n name (Some (lit "en")) with
    | Ok (f :: _) => Ok f
    | Ok [] => Err IndexError
    | Err e => Err e
    end
  else match from_iri r all_kinds (n_iri n ++ name) (Some name) with
       | Ok e => Ok (Found e)
       | Err KeyError => if cs then Err KeyError else retry name
       | Err e => Err e
       end.

(** namespace.py:150-170 *)
Definition get_with (retry : str -> res found) (r : registry) (n : namespace) (cs : bool) (name : str)
    : res found :=
  match do_get_with retry r n cs name with
  | Err KeyError =>
      if startswith inverse_prefix name then
        match do_get_with retry r n cs (after inverse_prefix name) with
        | Ok (Found e) => match e_kind e with Relationship => Ok (InverseOf e) | _ => Err AttributeError end
        | Ok (InverseOf e) => Ok (Found e)  (* the inverse of the inverse, C35; not reachable with cs *)
        | Err e => Err e
        end
      else Err KeyError
  | x => x
  end.

(** namespace.py:195-229 *)
Definition get_case_insensitive (r : registry) (n : namespace) (name : str) : res found :=
  match alt name (str_eqb (n_name n) (lit "cuba")) with
  | Err e => Err e
  | Ok None => Err KeyError
  | Ok (Some a) => get_with (fun _ => Err KeyError) r n true a
  end.

(** [ns.name], [ns.get(name)]: namespace.py:87-102, 133-148 *)
Definition ns_get (r : registry) (n : namespace) (name : str) : res found :=
  get_with (get_case_insensitive r n) r n false name.

(** namespace.py:231-244, [list(ns)].  An entity whose IRI is the namespace IRI
    has the empty suffix, which is falsy: [str(iri) + None] raises TypeError.
    (Simplification: in a namespace referenced by label the code asks for
    [self[None]] instead; modelled as RecursionError.) *)
Definition iter_one (r : registry) (n : namespace) (suffix : str) : res entity :=
  match suffix with
  | [] => if n_by_label n then Err RecursionError
          else Err TypeError   (* [str(iri) + None] *)
  | _ => from_iri r all_kinds (n_iri n ++ suffix) None
  end.
(** the subjects of the three rdf:type loops *)
Definition ns_suffixes (r : registry) (n : namespace) : list str :=
  flat_map (fun k => flat_map (fun t => match t with
         | (s, PType, OKind k') =>
             if kind_eqb k k' && startswith (n_iri n) s then [after (n_iri n) s] else []
         | _ => [] end) (r_graph r)) [Attribute; Relationship; Class].
Definition ns_iter (r : registry) (n : namespace) : res (list entity) :=
  mapM (iter_one r n) (ns_suffixes r n).

(** namespaces.py:28-38 *)
Definition get_entity (r : registry) (name : str) : res found :=
  match split_on dot name with
  | [ns; n] => match get_ns r ns with Ok nsp => ns_get r nsp n | Err e => Err e end
  | _ => Err ValueError
  end.

(** ** namespaces.txt *)
Definition tab : N := 9%N.
Definition newline : N := 10%N.

(** namespace_registry.py:250-252 *)
Definition store_namespaces (b : bindings) : str :=
  flat_map (fun nb => fst nb ++ [tab] ++ snd nb ++ [newline]) b.

(** [for line in f]: the lines of a text file, without their newline; an
    unterminated last line is a line.  Universal newlines: a carriage return
    also ends a line (CR LF counts once). *)
Definition cr : N := 13%N.
Fixpoint lines_aux (cur : str) (s : str) : list str :=
  match s with
  | [] => match cur with [] => [] | _ => [rev cur] end
  | c :: s' => if (c =? newline)%N then rev cur :: lines_aux [] s'
               else if (c =? cr)%N then
                 rev cur :: match s' with
                            | c2 :: s'' => if (c2 =? newline)%N then lines_aux [] s'' else lines_aux [] s'
                            | [] => []
                            end
               else lines_aux (c :: cur) s'
  end.
Definition lines (s : str) : list str := lines_aux [] s.

(** namespace_registry.py:269-273 *)
Fixpoint load_lines (ls : list str) (st : store) : res store :=
  match ls with
  | [] => Ok st
  | l :: ls' => match split_on tab l with
                | [name; iri] => load_lines ls' (ns_bind name iri st)
                | _ => Err ValueError
                end
  end.
Definition load_namespaces (file : str) (r : registry) : res registry :=
  match load_lines (lines file) (r_store r) with
  | Ok st => Ok (update_namespaces (Reg st (r_dict r) (r_graph r)))
  | Err e => Err e
  end.
