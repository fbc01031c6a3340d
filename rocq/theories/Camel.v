(** The converter of old ontology files: osp/core/tools/yaml2camelcase.py
    [Yaml2CamelCaseConverter] (names alone: Names.v).

    The document is a tree of Validator.v.  Simplifications: lists and
    dictionaries shared through YAML anchors, which would be converted twice, are
    not modelled; the keys of a dictionary that are not strings are different from
    each other and stay as they are; [str.lower] is that of Names.v; writing the
    file (94-109) is not modelled; when an exception is raised nothing is stored,
    so the half converted document is dropped. *)
From stdpp Require Import base list.
From Coq Require Import String.
From Verif Require Import Prelude Utf8 Text Names Validator.
Local Open Scope list_scope.

(** yaml2camelcase.py:20-24: (_|[A-Z])([A-Z]|[0-9]|_)* and the same twice with a
    dot between. *)
Definition upper_letter : re := Chr is_upper.
Definition old_name_re : re :=
  Seq (Alt (chr 95) upper_letter) (Star (Alts [upper_letter; digit; chr 95])).
Definition old_qualified_re : re := Seq old_name_re (Seq (chr 46) old_name_re).
Definition entity_name (s : str) : bool := re_match true old_name_re s.
Definition qualified_entity_name (s : str) : bool := re_match true old_qualified_re s.

(** [new[key] = value] *)
Fixpoint dset (k : scalar) (v : yaml) (l : list (scalar * yaml)) : list (scalar * yaml) :=
  match l with
  | [] => [(k, v)]
  | (k', v') :: l' =>
      match k, k' with
      | SStr a, SStr b => if str_eqb a b then (k', v) :: l' else (k', v') :: dset k v l'
      | _, _ => (k', v') :: dset k v l'
      end
  end.

Section conv.
  (** [toCamelCase] *)
  Context (cam : str -> res str).

  (** yaml2camelcase.py:68-74 (an element of a list) and 83-89 (a value under a key
      that is not renamed); [rec] is the recursive call. *)
  Definition conv_value (pat : str -> bool) (rec : yaml -> res yaml) (e : yaml) : res yaml :=
    match e with
    | YS (SStr s) =>
        if str_eqb s (lit "CUBA.ENTITY") then Ok (YS (SStr (lit "cuba.Entity")))
        else if pat s then rmap (fun w => YS (SStr w)) (cam s)
        else Ok e
    | _ => rec e
    end.

  (** yaml2camelcase.py:57-92 [convert_nested_doc] *)
  Fixpoint conv (pat : str -> bool) (y : yaml) {struct y} : res yaml :=
    match y with
    | YS _ => Ok y
    | YList l =>
        rmap YList ((fix go (l : list yaml) : res (list yaml) :=
          match l with
          | [] => Ok []
          | e :: l' =>
              match conv_value pat (conv qualified_entity_name) e with
              | Err x => Err x
              | Ok e' => rmap (cons e') (go l')
              end
          end) l)
    | YDict l =>
        rmap YDict ((fix go (acc l : list (scalar * yaml)) : res (list (scalar * yaml)) :=
          match l with
          | [] => Ok acc
          | (k, v) :: l' =>
              match k with
              | SStr s =>
                  if pat s then
                    match cam s with
                    | Err x => Err x
                    | Ok w => match conv qualified_entity_name v with
                              | Err x => Err x
                              | Ok v' => go (dset (SStr w) v' acc) l'
                              end
                    end
                  else match conv_value pat (conv qualified_entity_name) v with
                       | Err x => Err x
                       | Ok v' => go (dset k v' acc) l'
                       end
              | _ => match conv_value pat (conv qualified_entity_name) v with
                     | Err x => Err x
                     | Ok v' => go (dset k v' acc) l'
                     end
              end
          end) [] l)
    end.
End conv.

(** self.orig_onto_doc as Names.v uses it (yaml2camelcase.py:150-163): every entity
    with its superclasses.  An entity without a list of names and class expressions
    as subclass_of is outside the model (None). *)
Definition sup_of (y : yaml) : option sup :=
  match y with YS (SStr s) => Some (SName s) | YDict _ => Some SDict | _ => None end.
Definition odoc_entry (kv : scalar * yaml) : option (str * list sup) :=
  match kv with
  | (SStr k, YDict f) =>
      match lookup (lit "subclass_of") f with
      | Some (YList l) => (fun ss => (k, ss)) <$> stdpp.list.mapM sup_of l
      | _ => None
      end
  | _ => None
  end.
Definition odoc_of (y : yaml) : option odoc :=
  match y with YDict l => stdpp.list.mapM odoc_entry l | _ => None end.

(** yaml2camelcase.py:36-55 [__init__] and [convert]: the document after the
    conversion.  [ask], [fuel]: see Names.v. *)
Definition convert (ask : str -> bool) (fuel : nat) (doc : list (scalar * yaml))
  : res (list (scalar * yaml)) :=
  match lookup (lit "ontology") doc, lookup (lit "namespace") doc with
  | Some onto, Some (YS (SStr n)) =>
      match odoc_of onto with
      | None => Err TypeError
      | Some od =>
          let ns := lower n in
          let doc1 := dset (SStr (lit "namespace")) (YS (SStr ns)) doc in
          let doc2 :=
            match lookup (lit "requirements") doc1 with
            | None => Ok doc1
            | Some (YList l) =>
                match stdpp.list.mapM (fun y => match y with YS (SStr s) => Some (YS (SStr (lower s))) | _ => None end) l with
                | Some l' => Ok (dset (SStr (lit "requirements")) (YList l') doc1)
                | None => Err AttributeError
                end
            | Some _ => Err TypeError
            end in
          match doc2 with
          | Err e => Err e
          | Ok doc2 =>
              match conv (to_camel ns od ask fuel) entity_name onto with
              | Err e => Err e
              | Ok onto' => Ok (dset (SStr (lit "ontology")) onto' doc2)
              end
          end
      end
  | None, _ => Err KeyError
  | _, None => Err KeyError
  | _, _ => Err AttributeError
  end.
