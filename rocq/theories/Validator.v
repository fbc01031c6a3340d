(** Validation of YAML ontologies.

    Models osp/core/ontology/yml/yml_validator.py (whole file) and the key words
    of osp/core/ontology/yml/yml_keywords.py.

    A YAML document is a finite tree (documents that contain themselves through
    anchors are not modelled: Python would not stop on them).  Regular
    expressions are modelled by their abstract syntax and a matcher by
    derivatives.  Simplification: [\d] stands for the ASCII digits. *)
From Coq Require Import List Arith NArith ZArith Lia Bool String.
From Verif Require Import Prelude Utf8 Text.
Import ListNotations.
Local Open Scope nat_scope.
Local Open Scope list_scope.

(** ** Regular expressions *)
Inductive re :=
| Eps
| Chr (p : N -> bool)
| Seq (a b : re)
| Alt (a b : re)
| Star (a : re)
| Fail.

Fixpoint nullable (r : re) : bool :=
  match r with
  | Eps | Star _ => true
  | Chr _ | Fail => false
  | Seq a b => nullable a && nullable b
  | Alt a b => nullable a || nullable b
  end.

Fixpoint deriv (c : N) (r : re) : re :=
  match r with
  | Eps | Fail => Fail
  | Chr p => if p c then Eps else Fail
  | Seq a b => if nullable a then Alt (Seq (deriv c a) b) (deriv c b) else Seq (deriv c a) b
  | Alt a b => Alt (deriv c a) (deriv c b)
  | Star a => Seq (deriv c a) (Star a)
  end.

Fixpoint re_full (r : re) (s : str) : bool :=
  match s with
  | [] => nullable r
  | c :: s' => re_full (deriv c r) s'
  end.

(** some prefix of [s] matches *)
Fixpoint re_prefix (r : re) (s : str) : bool :=
  nullable r || match s with [] => false | c :: s' => re_prefix (deriv c r) s' end.

Definition lf : N := 10%N.
(** [re.compile("^r$").match(s)]: without MULTILINE, [$] also matches before a
    final newline; [re.compile("r").match(s)]: a prefix matches. *)
Definition re_match (anchored : bool) (r : re) (s : str) : bool :=
  if anchored then re_full r s || (endswith [lf] s && re_full r (before_suffix [lf] s))
  else re_prefix r s.

(** notation for transcribing the patterns *)
Definition is_letter (c : N) : bool :=
  ((97 <=? c)%N && (c <=? 122)%N) || ((65 <=? c)%N && (c <=? 90)%N).
Definition letter : re := Chr is_letter.
Definition digit : re := Chr is_digit.
Definition chr (n : N) : re := Chr (N.eqb n).
Fixpoint word (s : str) : re := match s with [] => Eps | c :: s' => Seq (chr c) (word s') end.
Definition Plus (r : re) : re := Seq r (Star r).
Definition Opt (r : re) : re := Alt r Eps.
Definition Alts (l : list re) : re := fold_right Alt Fail l.

(** yml_validator.py:17: ([a-zA-Z])([a-zA-Z]|[0-9]|_)*   (also 18) *)
Definition name_re : re := Seq letter (Star (Alts [letter; digit; chr 95])).
(** yml_validator.py:21-22 *)
Definition qualified_re : re := Seq name_re (Seq (chr 46) name_re).
(** yml_validator.py:50: \d+\.\d+(\.\d+)? *)
Definition version_re : re :=
  Seq (Plus digit) (Seq (chr 46) (Seq (Plus digit) (Opt (Seq (chr 46) (Plus digit))))).
(** yml_keywords.py:31-39 *)
Definition characteristics : list str :=
  map lit ["reflexive"; "symmetric"; "transitive"; "functional"; "irreflexive";
           "asymmetric"; "inversefunctional"]%string.
(** yml_keywords.py:41-47 *)
Definition datatypes : list str :=
  map lit ["BOOL"; "INT"; "FLOAT"; "STRING"; "VECTOR"]%string.
(** yml_validator.py:40 *)
Definition characteristic_re : re := Alts (map word characteristics).
(** yml_validator.py:44-45: (VECTOR:)?(BOOL|...)(:\d+)*  *)
Definition datatype_re : re :=
  Seq (Opt (word (lit "VECTOR:"))) (Seq (Alts (map word datatypes)) (Star (Seq (chr 58) (Plus digit)))).
(** yml_validator.py:63, 64 *)
Definition or_and_re : re := Alts [word (lit "or"); word (lit "and")].
Definition not_re : re := word (lit "not").
(** yml_validator.py:69: many|some|\*|\+|\?|\d+\+|\d+-\d|\d+ *)
Definition cardinality_re : re :=
  Alts [word (lit "many"); word (lit "some"); chr 42; chr 43; chr 63;
        Seq (Plus digit) (chr 43); Seq (Plus digit) (Seq (chr 45) digit); Plus digit].

(** ** Documents *)
Inductive scalar :=
| SNone | SBool (b : bool) | SInt (z : Z)
| SFloat (repr : str) (eq01 : option bool)  (* str(x); whether x == 0 or x == 1 *)
| SStr (s : str) | SOther.                  (* dates, bytes *)
Inductive yaml :=
| YS (s : scalar)
| YList (l : list yaml)
| YDict (l : list (scalar * yaml)).

(** [str(doc)] if [isinstance(doc, (str, int, float))] (a bool is an int),
    yml_validator.py:101-103 *)
Definition scalar_text (s : scalar) : option str :=
  match s with
  | SBool true => Some (lit "True")
  | SBool false => Some (lit "False")
  | SInt z => Some (decZ z)
  | SFloat t _ => Some t
  | SStr t => Some t
  | SNone | SOther => None
  end.

(** [doc.get(k)] for a string key *)
Fixpoint lookup (k : str) (l : list (scalar * yaml)) : option yaml :=
  match l with
  | [] => None
  | (SStr k', v) :: l' => if str_eqb k k' then Some v else lookup k l'
  | _ :: l' => lookup k l'
  end.

(** ** Formats *)
Inductive fname := FRoot | FEntity | FClassExpr | FRelExpr | FClassDef | FRelDef | FAttrDef.
Inductive ctype := CStr | CBool.
Inductive pattern :=
| PNone
| PName (n : fname)
| PRe (anchored : bool) (r : re)
| PList (p : pattern)
| PDict (k v : pattern)
| PCall (t : ctype).
Inductive fmt :=
| FAlts (l : list pattern)
| FFields (l : list (bool * str * pattern)).

Definition qualified_p : pattern := PRe true qualified_re.
Definition name_p : pattern := PRe true name_re.
Definition ces_p : pattern := PList (PName FClassExpr).

(** yml_validator.py:24-46 *)
Definition entity_common : list (bool * str * pattern) :=
  [(false, lit "description", PCall CStr); (true, lit "subclass_of", ces_p)].
Definition class_definition : list (bool * str * pattern) :=
  [(false, lit "attributes", PDict qualified_p PNone);
   (false, lit "disjoint_with", ces_p); (false, lit "equivalent_to", ces_p)].
Definition relationship_definition : list (bool * str * pattern) :=
  [(false, lit "inverse", qualified_p); (false, lit "default_rel", PCall CBool);
   (false, lit "domain", PName FClassExpr); (false, lit "range", PName FClassExpr);
   (false, lit "characteristics", PList (PRe true characteristic_re))].
Definition attribute_definition : list (bool * str * pattern) :=
  [(false, lit "datatype", PRe true datatype_re)].

(** yml_validator.py:48-75 *)
Definition format (n : fname) : fmt :=
  match n with
  | FRoot => FFields
      [(true, lit "version", PRe true version_re);
       (true, lit "namespace", PRe false name_re);
       (true, lit "ontology", PDict name_p (PName FEntity));
       (false, lit "default_rel", qualified_p);
       (false, lit "author", PCall CStr);
       (false, lit "requirements", PList name_p)]
  | FEntity => FFields (entity_common ++ class_definition ++ relationship_definition ++ attribute_definition)
  | FClassExpr => FAlts
      [qualified_p; PDict qualified_p (PName FRelExpr);
       PDict (PRe true or_and_re) ces_p; PDict (PRe true not_re) (PName FClassExpr)]
  | FRelExpr => FFields
      [(true, lit "range", PName FClassExpr); (false, lit "cardinality", PRe true cardinality_re);
       (false, lit "exclusive", PCall CBool)]
  | FClassDef => FFields (entity_common ++ class_definition)
  | FRelDef => FFields (entity_common ++ relationship_definition)
  | FAttrDef => FFields (entity_common ++ attribute_definition)
  end.

(** the first exception of a loop *)
Fixpoint forM {A} (f : A -> res unit) (l : list A) : res unit :=
  match l with
  | [] => Ok tt
  | x :: l' => match f x with Ok _ => forM f l' | Err e => Err e end
  end.

(** yml_validator.py:150-160: every alternative is tried; ValueErrors are counted *)
Fixpoint count_errors (f : pattern -> res unit) (l : list pattern) : res nat :=
  match l with
  | [] => Ok 0
  | p :: l' => match f p with
               | Ok _ => count_errors f l'
               | Err ValueError => rmap S (count_errors f l')
               | Err e => Err e
               end
  end.

(** [PCall]: yml_validator.py:131-135, [pattern(doc) != doc] *)
Definition call_ok (t : ctype) (d : yaml) : bool :=
  match t, d with
  | CStr, YS (SStr _) => true
  | CBool, YS (SBool _) => true
  | CBool, YS (SInt z) => (z =? 0)%Z || (z =? 1)%Z
  | CBool, YS (SFloat _ (Some _)) => true
  | _, _ => false
  end.

(** yml_validator.py:138-177, [v] is [validate] *)
Definition validate_format (v : yaml -> pattern -> res unit) (d : yaml) (f : fmt) : res unit :=
  match f with
  | FAlts l => match count_errors (v d) l with
               | Err e => Err e
               | Ok n => if n =? List.length l then Err ValueError else Ok tt
               end
  | FFields fs =>
      match d with
      | YDict kv =>
          match forM (fun '(req, k, p) =>
                  match lookup k kv with
                  | None => if (req : bool) then Err ValueError else Ok tt
                  | Some x => v x p
                  end) fs with
          | Err e => Err e
          | Ok _ => forM (fun '(k, _) =>
                      match k with
                      | SStr s => if existsb (fun '(_, k', _) => str_eqb s k') fs then Ok tt else Err ValueError
                      | _ => Err ValueError
                      end) kv
          end
      | _ => Err ValueError
      end
  end.

(** yml_validator.py:78-135 *)
Fixpoint validate (fuel : nat) (d : yaml) (p : pattern) {struct fuel} : res unit :=
  match fuel with
  | O => Err OutOfFuel
  | S fuel =>
      match p with
      | PNone => Ok tt
      | PName n => validate_format (validate fuel) d (format n)
      | PRe anchored r =>
          match d with
          | YS s => match scalar_text s with
                    | Some t => if re_match anchored r t then Ok tt else Err ValueError
                    | None => Err ValueError
                    end
          | _ => Err ValueError
          end
      | PList q =>
          match d with
          | YList l => forM (fun x => validate fuel x q) l
          | _ => Err ValueError
          end
      | PDict kp vp =>
          match d with
          | YDict kv => forM (fun '(k, x) =>
              match validate fuel (YS k) kp with Ok _ => validate fuel x vp | Err e => Err e end) kv
          | _ => Err ValueError
          end
      | PCall t => if call_ok t d then Ok tt else Err ValueError
      end
  end.

(** enough fuel for a document: two calls per level of nesting *)
Fixpoint depth (d : yaml) : nat :=
  match d with
  | YS _ => 0
  | YList l => S (fold_right (fun x n => max (depth x) n) 0 l)
  | YDict kv => S (fold_right (fun x n => max (depth (snd x)) n) 0 kv)
  end.
Definition enough (d : yaml) : nat := 2 * depth d + 2.
