(** Validation of a tree of objects against a schema file.

    Models osp/core/utils/schema_validation.py (whole file). *)
From Coq Require Import List Arith NArith ZArith Lia Bool String.
From Verif Require Import Prelude Utf8 Text.
Import ListNotations.
Local Open Scope nat_scope.
Local Open Scope list_scope.

Definition obj := N.

(** The objects as the validation sees them: [str(o.oclass)], the objects of
    [o.iter()] and [len(o.get(rel=get_entity(rel), oclass=get_entity(oclass)))]
    (an exception of [get_entity] for names that are not installed).
    Their meaning in a session is the subject of C09-C18. *)
Record world := World {
  cls : obj -> str;
  kids : obj -> list obj;
  card : obj -> str -> str -> res nat
}.

(** [constraints]: null, or a dictionary with or without the key "cardinality" *)
Inductive cval := CInt (z : Z) | CText (s : str).
Inductive constraint := NoConstraint | Constraint (c : option cval).

(** the data model: class -> (null or relationship -> neighbour class -> constraint) *)
Definition rels := list (str * list (str * constraint)).
Definition schema := list (str * option rels).

Fixpoint sget {A} (k : str) (l : list (str * A)) : option A :=
  match l with
  | [] => None
  | (k', v) :: l' => if str_eqb k k' then Some v else sget k l'
  end.
Fixpoint sset {A} (k : str) (v : A) (l : list (str * A)) : list (str * A) :=
  match l with
  | [] => [(k, v)]
  | (k', v') :: l' => if str_eqb k k' then (k', v) :: l' else (k', v') :: sset k v l'
  end.

Definition consistency_error : exn := OtherError 1.
Definition cardinality_error : exn := OtherError 2.

Definition dash : N := 45%N.
Definition plus : N := 43%N.

(** schema_validation.py:117-131: (min, max); no max is float('inf').
    A dictionary without "cardinality" makes ['-' in None] raise TypeError. *)
Definition interpret (c : constraint) : res (Z * option Z) :=
  match c with
  | NoConstraint => Ok (0%Z, None)
  | Constraint None => Err TypeError
  | Constraint (Some (CInt z)) => Ok (z, Some z)
  | Constraint (Some (CText s)) =>
      if existsb (N.eqb dash) s then
        match split_on dash s with
        | a :: b :: _ =>
            match int_of_str a with
            | Err e => Err e
            | Ok mn => match int_of_str b with Err e => Err e | Ok mx => Ok (mn, Some mx) end
            end
        | _ => Err IndexError
        end
      else if existsb (N.eqb plus) s then
        match split_on plus s with
        | a :: _ => match int_of_str a with Err e => Err e | Ok mn => Ok (mn, None) end
        | _ => Err IndexError
        end
      else Ok (0%Z, None)
  end.

(** schema_validation.py:90-114 *)
Definition check_card (w : world) (o : obj) (rel dest : str) (c : constraint) : res unit :=
  match card w o rel dest with
  | Err e => Err e
  | Ok n =>
      match interpret c with
      | Err e => Err e
      | Ok (mn, mx) =>
          if (Z.of_nat n <? mn)%Z || match mx with None => false | Some m => (m <? Z.of_nat n)%Z end
          then Err cardinality_error else Ok tt
      end
  end.

Fixpoint forall_m {A} (f : A -> res unit) (l : list A) : res unit :=
  match l with
  | [] => Ok tt
  | x :: l' => match f x with Ok _ => forall_m f l' | Err e => Err e end
  end.

(** schema_validation.py:73-80: all constraints of one object *)
Definition check_object (w : world) (rs : rels) (o : obj) : res unit :=
  forall_m (fun rn : str * list (str * constraint) =>
    forall_m (fun nc : str * constraint => check_card w o (fst rn) (fst nc) (snd nc)) (snd rn)) rs.

(** schema_validation.py:155-180 *)
Definition all_constraints (m : schema) : list (str * constraint) :=
  flat_map (fun e => match snd e with
                     | None => []
                     | Some rs => flat_map (fun rn => snd rn) rs
                     end) m.
Definition subtrees (m : schema) : res (list str * list str) :=
  match mapM (fun nc => rmap (fun r => (fst nc, fst r)) (interpret (snd nc))) (all_constraints m) with
  | Err e => Err e
  | Ok l =>
      let optional := map fst (filter (fun x => (snd x =? 0)%Z) l) in
      let mandatory := map fst (filter (fun x => (0 <? snd x)%Z) l) in
      if existsb (fun x => existsb (str_eqb x) mandatory) optional
      then Err consistency_error else Ok (optional, mandatory)
  end.

(** schema_validation.py:134-152.  The keys of [result] are strings while the
    test [neighbour.oclass not in result.keys()] asks for the class object, which
    is equal to no string: the list of a class is overwritten, never extended.
    There is no check for objects visited before. *)
Fixpoint group (fuel : nat) (w : world) (x : obj) (g : list (str * list obj)) {struct fuel}
    : res (list (str * list obj)) :=
  match fuel with
  | O => Err RecursionError
  | S fuel =>
      (fix go (ks : list obj) (g : list (str * list obj)) : res (list (str * list obj)) :=
         match ks with
         | [] => Ok g
         | k :: ks' => match group fuel w k (sset (cls w k) [k] g) with
                       | Err e => Err e
                       | Ok g' => go ks' g'
                       end
         end) (kids w x) g
  end.

Definition falsy (r : option rels) : bool := match r with None | Some [] => true | _ => false end.

(** schema_validation.py:20-81 *)
Definition validate_tree (fuel : nat) (w : world) (m : schema) (root : obj) : res unit :=
  match subtrees m with
  | Err e => Err e
  | Ok (optional, mandatory) =>
      match group fuel w root [(cls w root, [root])] with
      | Err e => Err e
      | Ok groups =>
          match forall_m (fun e : str * option rels =>
                  if falsy (snd e) || existsb (str_eqb (fst e)) mandatory
                     || negb (existsb (str_eqb (fst e)) optional)
                  then match sget (fst e) groups with
                       | Some _ => Ok tt
                       | None => Err consistency_error
                       end
                  else Ok tt) m with
          | Err e => Err e
          | Ok _ =>
              forall_m (fun g : str * list obj =>
                match sget (fst g) m with
                | None | Some None => Ok tt
                | Some (Some rs) => forall_m (check_object w rs) (snd g)
                end) groups
          end
      end
  end.
