(** Entity names: upper-case/camel-case conversion.

    Models osp/core/ontology/yml/case_insensitivity.py (whole file),
    osp/core/ontology/cuba.py:8-45 and
    osp/core/tools/yaml2camelcase.py:111-189.

    Simplification: [str.upper], [str.lower], [str.isupper], [str.islower] are
    modelled for ASCII characters; every other character is caseless.  (Entity
    names of YAML ontologies are ASCII, yml_validator.py:17.) *)
From Coq Require Import List Arith NArith Lia Bool String.
From Verif Require Import Prelude Utf8 Text.
Import ListNotations.
Local Open Scope nat_scope.
Local Open Scope list_scope.

Definition is_upper (c : N) : bool := (65 <=? c)%N && (c <=? 90)%N.
Definition is_lower (c : N) : bool := (97 <=? c)%N && (c <=? 122)%N.
Definition up1 (c : N) : N := if is_lower c then (c - 32)%N else c.
Definition low1 (c : N) : N := if is_upper c then (c + 32)%N else c.
Definition upper (s : str) : str := map up1 s.
Definition lower (s : str) : str := map low1 s.
Definition underscore : N := 95%N.

(** cuba.py:8-22 *)
Definition cuba_entities : list str :=
  map lit ["activeRelationship"; "Entity"; "File"; "Nothing";
           "passiveRelationship"; "path"; "Wrapper"; "attribute";
           "relationship"; "Class"]%string.
Definition cuba_hidden : list str :=
  map lit ["_default"; "_default_attribute"; "_default_value";
           "_default_rel"; "_length"; "_shape"; "_dtype"; "_reference_by_label"]%string.
Definition cuba_dtype_prefixes : list str :=
  map lit ["_datatypes/STRING-"; "_datatypes/VECTOR-"]%string.

(** cuba.py:39-45, for a plain [str] argument *)
Definition in_cuba (n : str) : bool :=
  existsb (str_eqb n) cuba_entities || existsb (str_eqb n) cuba_hidden
  || existsb (fun p => startswith p n) cuba_dtype_prefixes.

(** case_insensitivity.py:22-26: the loop that puts "_" before each upper-case letter *)
Fixpoint snake (s : str) : str :=
  match s with
  | [] => []
  | x :: s' => if is_upper x then underscore :: x :: snake s' else x :: snake s'
  end.

(** case_insensitivity.py:33-40 *)
Fixpoint unsnake (up : bool) (s : str) : str :=
  match s with
  | [] => []
  | x :: s' => if (x =? underscore)%N then unsnake true s'
               else (if up then up1 x else low1 x) :: unsnake false s'
  end.

(** case_insensitivity.py:6-55.  [Err IndexError]: [name[0]] on the empty name;
    [Ok None]: no branch returns. *)
Definition alt (given : str) (is_cuba : bool) : res (option str) :=
  match given with
  | [] => Err IndexError
  | g0 :: rest =>
      if negb is_cuba && existsb is_lower given && existsb is_upper given then
        Ok (Some (upper (up1 g0 :: snake rest)))
      else if negb is_cuba then Ok (Some (upper given))
      else if existsb (N.eqb underscore) rest || forallb is_upper given then
        let name := up1 g0 :: unsnake false rest in
        if in_cuba name then Ok (Some name)
        else let name' := low1 (up1 g0) :: unsnake false rest in
             if in_cuba name' then Ok (Some name') else Ok None
      else if is_upper g0 then
        let name := low1 g0 :: rest in if in_cuba name then Ok (Some name) else Ok None
      else if is_lower g0 then
        let name := up1 g0 :: rest in if in_cuba name then Ok (Some name) else Ok None
      else Ok None
  end.

(** yaml2camelcase.py:181-188: the loop of [toCamelCase] *)
Fixpoint camel_tail (next_upper : bool) (s : str) : str :=
  match s with
  | [] => []
  | c :: s' => if (c =? underscore)%N then camel_tail true s'
               else if next_upper then up1 c :: camel_tail false s'
               else low1 c :: camel_tail false s'
  end.

(** yaml2camelcase.py:179-189 for an unqualified name; [caps] is the result of
    [get_first_letter_caps] *)
Definition camel_local (caps : bool) (word : str) : res str :=
  match word with
  | [] => Err IndexError
  | c :: s => Ok ((if caps then up1 c else low1 c) :: camel_tail false s)
  end.

(** ** The ontology document of yaml2camelcase, as far as names are concerned:
    each entity with its list of superclasses, each a name or a dictionary
    (class expression) *)
Inductive sup := SName (w : str) | SDict.
Definition odoc := list (str * list sup).

Definition dot : N := 46%N.

Fixpoint assoc {A} (k : str) (l : list (str * A)) : option A :=
  match l with
  | [] => None
  | (k', v) :: l' => if str_eqb k k' then Some v else assoc k l'
  end.

Definition cuba_lower_names : list str :=
  map lit ["CUBA.RELATIONSHIP"; "CUBA.ACTIVE_RELATIONSHIP";
           "CUBA.PASSIVE_RELATIONSHIP"; "CUBA.ATTRIBUTE"; "CUBA.PATH"]%string.
Definition cuba_upper_names : list str :=
  map lit ["CUBA.WRAPPER"; "CUBA.NOTHING"; "CUBA.FILE"]%string.

(** [any(f(x) is b for x in l)]: exceptions of earlier elements propagate *)
Fixpoint any_is (b : bool) (l : list (res (option bool))) : res bool :=
  match l with
  | [] => Ok false
  | Err e :: _ => Err e
  | Ok (Some b') :: l' => if Bool.eqb b b' then Ok true else any_is b l'
  | Ok None :: l' => any_is b l'
  end.

(** yaml2camelcase.py:111-163.  [ns] is the (lower-case) namespace of the
    document, [ask w] the user's answer to "Is w an ontology class", which is
    remembered in [ambiguity_resolution] and therefore a function of the word.
    A recursion through a cycle of superclasses exhausts [fuel] (Python:
    RecursionError).  A word with two or more dots makes the unpacking of
    [word.split(".")] raise ValueError. *)
Fixpoint first_letter_caps (ns : str) (doc : odoc) (ask : str -> bool) (fuel : nat)
    (word : str) (internal : bool) {struct fuel} : res (option bool) :=
  match fuel with
  | O => Err RecursionError
  | S fuel' =>
      if existsb (str_eqb word) cuba_lower_names then Ok (Some false)
      else if existsb (str_eqb word) cuba_upper_names then Ok (Some true)
      else if str_eqb word (lit "CUBA.ENTITY") then
        Ok (if internal then None else Some true)
      else if existsb (N.eqb dot) word then
        match split_on dot word with
        | [nsw; name] =>
            if str_eqb (lower nsw) ns then
              match first_letter_caps ns doc ask fuel' name true with
              | Err e => Err e
              | Ok x => Ok (match x with
                            | None => if internal then None else Some true
                            | Some _ => x
                            end)
              end
            else Ok (Some (ask word))
        | _ => Err ValueError
        end
      else match assoc word doc with
           | None => Err ValueError
           | Some subclasses =>
               if existsb (fun s => match s with SDict => true | _ => false end) subclasses
               then Ok (Some true)
               else
                 let rs := map (fun s => match s with
                                         | SName w => first_letter_caps ns doc ask fuel' w true
                                         | SDict => Err TypeError
                                         end) subclasses in
                 match any_is false rs with
                 | Err e => Err e
                 | Ok true => Ok (Some false)
                 | Ok false =>
                     match any_is true rs with
                     | Err e => Err e
                     | Ok true => Ok (Some true)
                     | Ok false => Ok (if internal then None else Some true)
                     end
                 end
           end
  end.

(** yaml2camelcase.py:165-189 *)
Definition to_camel (ns : str) (doc : odoc) (ask : str -> bool) (fuel : nat) (word : str)
    : res str :=
  match first_letter_caps ns doc ask fuel word false with
  | Err e => Err e
  | Ok caps =>
      let caps := match caps with Some b => b | None => false end in
      if existsb (N.eqb dot) word then
        match split_on dot word with
        | nsw :: w :: _ => rmap (fun r => lower nsw ++ [dot] ++ r) (camel_local caps w)
        | _ => Err IndexError
        end
      else camel_local caps word
  end.
