(** Serialisation of values for the transport.

    Models osp/core/session/transport/transport_utils.py:185-229 (deserialize),
    232-267 (serializable), 290-342 (_serializable, _to_cuds_object, without the
    creation of the object in the session, which is modelled in Buffers.v),
    osp/core/ontology/entity.py:36-38 (str of an entity) and what json.dumps
    followed by json.loads does to the keys of dictionaries. *)
From Coq Require Import List Arith NArith ZArith Lia Bool String.
From Verif Require Import Prelude Utf8 Text Names Namespace Uuid.
Import ListNotations.
Local Open Scope nat_scope.
Local Open Scope list_scope.

(** Keys of Python dictionaries.  [KOther]: a key json.dumps refuses (a uuid, a
    tuple, ...).  Simplification: float keys are not modelled. *)
Inductive key := KStr (s : str) | KInt (z : Z) | KBool (b : bool) | KNone | KOther.

(** What get_triples(include_neighbor_types=True) yields for an object (cuds.py:117-126):
    its own triples and the type triples of its neighbours. *)
Record cuds := CudsV { c_subj : term; c_own : list ttriple; c_nb : list ttriple }.

Inductive seqkind := SList | STuple | SSet | SIter.

(** Python values.  A float is its bit pattern.  [VInverse e]: the inverse of the
    relationship [e] (only a result of get_entity).  [VOther]: an object that is
    none of the others and not iterable. *)
Inductive pv :=
| VNone | VBool (b : bool) | VStr (s : str) | VInt (z : Z) | VFloat (bits : N)
| VUuid (u : N) | VEnt (e : entity) | VInverse (e : entity) | VCuds (c : cuds)
| VDict (l : list (key * pv)) | VSeq (k : seqkind) (l : list pv) | VOther.

(** JSON values; before json.dumps the keys may still be other than strings. *)
Inductive jv :=
| JNone | JBool (b : bool) | JStr (s : str) | JInt (z : Z) | JFloat (bits : N)
| JDict (l : list (key * jv)) | JList (l : list jv).

(** [mapM] in a form that Coq's termination checker sees through. *)
Section MapS.
  Context {A B : Type} (f : A -> res B).
  Fixpoint mapS (l : list A) : res (list B) :=
    match l with
    | [] => Ok []
    | x :: l' => match f x with
                 | Err e => Err e
                 | Ok y => match mapS l' with Err e => Err e | Ok ys => Ok (y :: ys) end
                 end
    end.
End MapS.

(** entity.py:30-38 *)
Definition entity_str (r : registry) (e : entity) : str :=
  fst (ns_of_iri r (e_iri e)) ++ [dot] ++ e_name e.

Definition UUID_KEY : str := lit "UUID".
Definition ENTITY_KEY : str := lit "ENTITY".
Definition ID_KEY : str := lit "@id".

Section Serial.
(** the ontology; rdflib-jsonld's from_rdf (a list of node objects) and to_rdf *)
Variables (r : registry) (from_rdf : list ttriple -> list jv) (to_rdf : list jv -> list ttriple).

(** transport_utils.py:250-267.  A VInverse is not given to [serializable]. *)
Fixpoint serializable (v : pv) : res jv :=
  match v with
  | VNone => Ok JNone
  | VBool b => Ok (JBool b)
  | VStr s => Ok (JStr s)
  | VInt z => Ok (JInt z)
  | VFloat n => Ok (JFloat n)
  | VUuid u => Ok (JDict [(KStr UUID_KEY, JStr (uuid_str u))])
  | VEnt e => Ok (JDict [(KStr ENTITY_KEY, JStr (entity_str r e))])
  | VInverse _ => Err NotImplementedError
  | VCuds c => Ok (JList (from_rdf (c_own c ++ c_nb c)))
  | VDict l => rmap JDict (mapS (fun kv => rmap (pair (fst kv)) (serializable (snd kv))) l)
  | VSeq _ l => rmap JList (mapS serializable l)
  | VOther => Err ValueError
  end.

(** json.dumps: the text of a key *)
Definition json_key (k : key) : res str :=
  match k with
  | KStr s => Ok s
  | KInt z => Ok (decZ z)
  | KBool true => Ok (lit "true")
  | KBool false => Ok (lit "false")
  | KNone => Ok (lit "null")
  | KOther => Err TypeError
  end.
(** json.loads: of equal keys the last value counts, at the first's place *)
Definition json_dict (l : list (str * jv)) : list (key * jv) :=
  map (fun kv => (KStr (fst kv), snd kv)) (fold_left (fun d kv => dset (fst kv) (snd kv) d) l []).

(** json.loads(json.dumps(v)) *)
Fixpoint through_json (v : jv) : res jv :=
  match v with
  | JDict l =>
      rmap (fun l' => JDict (json_dict l'))
        (mapS (fun kv => match json_key (fst kv) with
                         | Err e => Err e
                         | Ok s => rmap (pair s) (through_json (snd kv))
                         end) l)
  | JList l => rmap JList (mapS through_json l)
  | _ => Ok v
  end.

(** datatypes.py:53-73 [to_uuid] on a JSON value *)
Definition to_uuid (v : jv) : res pv :=
  match v with
  | JStr s => rmap VUuid (uuid_of_text s)
  | JInt z => if (0 <=? z)%Z && (z <? 2 ^ 128)%Z then Ok (VUuid (Z.to_N z)) else Err ValueError
  | JBool b => Ok (VUuid (if b then 1 else 0)%N)
  | _ => Err ValueError
  end.
(** namespaces.py:28-38 on a JSON value *)
Definition to_entity (v : jv) : res pv :=
  match v with
  | JStr s => match get_entity r s with
              | Ok (Found e) => Ok (VEnt e)
              | Ok (InverseOf e) => Ok (VInverse e)
              | Err e => Err e
              end
  | _ => Err AttributeError
  end.

Definition rdf_type : term := TIri (lit "http://www.w3.org/1999/02/22-rdf-syntax-ns#type").
Definition ostr_eqb' (a b : option str) : bool :=
  match a, b with Some x, Some y => str_eqb x y | None, None => true | _, _ => false end.
Definition term_eqb (a b : term) : bool :=
  match a, b with
  | TIri x, TIri y => str_eqb x y
  | TBnode x, TBnode y => str_eqb x y
  | TLit x d l, TLit y d' l' => str_eqb x y && ostr_eqb' d d' && ostr_eqb' l l'
  | _, _ => false
  end.
Definition t_s (t : ttriple) : term := fst (fst t).
Definition t_p (t : ttriple) : term := snd (fst t).

(** transport_utils.py:328-349: the subject and the two sets of triples.
    The values of vectors are converted there, see C39. *)
Definition split_graph (g : list ttriple) : res cuds :=
  match (match find (fun t => negb (term_eqb (t_p t) rdf_type)) g with
         | Some t => Ok (t_s t)
         | None => match g with t :: _ => Ok (t_s t) | [] => Err StopIteration end
         end) with
  | Err e => Err e
  | Ok s => Ok (CudsV s (filter (fun t => term_eqb (t_s t) s) g)
                        (filter (fun t => negb (term_eqb (t_s t) s)) g))
  end.

Definition has_key (k : str) (l : list (key * jv)) : bool :=
  existsb (fun kv => match fst kv with KStr s => str_eqb s k | _ => false end) l.
(** [set([k]) == set(d.keys())] *)
Definition only_key (k : str) (l : list (key * jv)) : option jv :=
  match l with
  | [(KStr s, v)] => if str_eqb s k then Some v else None
  | _ => None
  end.

(** transport_utils.py:203-229, on what json.loads gives (keys are strings, no
    key twice) *)
Fixpoint deserialize (v : jv) : res pv :=
  match v with
  | JNone => Ok VNone
  | JBool b => Ok (VBool b)
  | JStr s => Ok (VStr s)
  | JInt z => Ok (VInt z)
  | JFloat n => Ok (VFloat n)
  | JList l =>
      match l with
      | JDict d :: _ => if has_key ID_KEY d then rmap VCuds (split_graph (to_rdf l))
                        else rmap (VSeq SList) (mapS deserialize l)
      | _ => rmap (VSeq SList) (mapS deserialize l)
      end
  | JDict l =>
      match only_key UUID_KEY l with
      | Some x => to_uuid x
      | None =>
          match only_key ENTITY_KEY l with
          | Some x => to_entity x
          | None => rmap VDict (mapS (fun kv => rmap (pair (fst kv)) (deserialize (snd kv))) l)
          end
      end
  end.

(** what the peer gets *)
Definition transmit (v : pv) : res pv :=
  match serializable v with
  | Err e => Err e
  | Ok j => match through_json j with Err e => Err e | Ok j' => deserialize j' end
  end.
End Serial.
