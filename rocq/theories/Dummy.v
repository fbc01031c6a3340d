(** The dummy simulation: osp/wrappers/simdummy/dummy_syntactic_layer.py and
    simdummy_session.py.

    Simplifications: (1) of the objects of the session only the persons are kept,
    with name, age, whether the wrapper has them as a part, and whether they are
    citizens (and then inhabitants of the city); (2) the wrapper has exactly one
    city, as simdummy_session.py:64 asserts; without a city reading a person that
    moved raises an IndexError; (3) the buffers are: the added persons in order,
    and whether anything is in the other two; (4) the cardinality check of run()
    (property C58) succeeds. *)
From Coq Require Import List NArith ZArith Bool Lia.
From Verif Require Import Prelude.
Import ListNotations.
Open Scope Z_scope.

Definition name := list N.

(** Comparison of strings in Python: by code points, a prefix is smaller. *)
Fixpoint name_le (a b : name) : bool :=
  match a, b with
  | [], _ => true
  | _ :: _, [] => false
  | x :: a', y :: b' => if (x <? y)%N then true else if (y <? x)%N then false else name_le a' b'
  end.

(** A person as the user sees it. *)
Record person := Pers { p_name : name; p_age : Z; p_part : bool; p_citizen : bool }.

(** dummy_syntactic_layer.py:33-38 (persons, i), simdummy_session.py:30-33
    (_person_map), sim_wrapper_session.py:14-21 (_ran) and the session. *)
Record dsess := DS {
  d_persons : list (name * Z);      (* persons of the engine: name and age *)
  d_i : Z;
  d_map : list (N * nat);           (* _person_map *)
  d_steps : Z;                      (* numSteps of the wrapper *)
  d_view : list (N * person);       (* the persons of the session *)
  d_expired : list N;
  d_added : list N;                 (* buffer of added persons *)
  d_changed : bool;                 (* something in the buffers updated, deleted *)
  d_ran : bool }.

Definition d_new (steps : Z) : dsess := DS [] 0 [] steps [] [] [] false false.

Fixpoint assoc {A} (u : N) (l : list (N * A)) : option A :=
  match l with [] => None | (v, a) :: l' => if (v =? u)%N then Some a else assoc u l' end.
Definition put {A} (u : N) (a : A) (l : list (N * A)) : list (N * A) :=
  map (fun e => if (fst e =? u)%N then (u, a) else e) l.
Definition mem (u : N) (l : list N) : bool := existsb (N.eqb u) l.
Definition drop_uid (u : N) (l : list N) : list N := filter (fun v => negb (v =? u)%N) l.

(** Python's sorted is stable: x goes before the elements that are not smaller. *)
Fixpoint insert (x : N * person) (l : list (N * person)) : list (N * person) :=
  match l with
  | [] => [x]
  | y :: l' => if name_le (p_name (snd x)) (p_name (snd y)) then x :: l else y :: insert x l'
  end.
Definition sort (l : list (N * person)) : list (N * person) := fold_right insert [] l.

(** dummy_syntactic_layer.py:40-50 [add_person] and the assignment to the map,
    simdummy_session.py:171-173 *)
Definition add_person (e : list (name * Z) * list (N * nat)) (x : N * person) : list (name * Z) * list (N * nat) :=
  (fst e ++ [(p_name (snd x), p_age (snd x))], snd e ++ [(fst x, length (fst e))]).

(** simdummy_session.py:148-173 [_apply_added] of the first run: those that are no
    part of the wrapper are skipped; as the sort is stable, before or after is the same. *)
Definition apply_added (s : dsess) : dsess :=
  let ps := sort (filter (fun x => p_part (snd x) && mem (fst x) (d_added s)) (d_view s)) in
  let e := fold_left add_person ps (d_persons s, d_map s) in
  DS (fst e) (d_i s) (snd e) (d_steps s) (d_view s) (d_expired s) (d_added s) (d_changed s) (d_ran s).

(** dummy_syntactic_layer.py:64-73 [simulate] *)
Definition simulate (k : Z) (s : dsess) : dsess :=
  DS (map (fun p => (fst p, snd p + k)) (d_persons s)) (d_i s + k) (d_map s) (d_steps s) (d_view s)
     (d_expired s) (d_added s) (d_changed s) (d_ran s).

(** sim_wrapper_session.py:23-40 [run]: the buffers are applied (only the added one in
    the first run, sim_wrapper_session.py:78-85) and emptied, the simulation runs,
    everything expires; simdummy_session.py:159-162, 185-188, 200-203: no changes after
    the first run. *)
Definition d_run (s : dsess) : dsess * option exn :=
  if d_ran s && (negb (match d_added s with [] => true | _ => false end) || d_changed s) then (s, Some RuntimeError)
  else
    let s1 := simulate (d_steps s) (if d_ran s then s else apply_added s) in
    (DS (d_persons s1) (d_i s1) (d_map s1) (d_steps s1) (d_view s1) (map fst (d_view s1)) [] false true, None).

(** simdummy_session.py:74-90 [_load_person], :124-146 [_check_convert_to_inhabitant]
    with dummy_syntactic_layer.py:52-62 [get_person] *)
Definition load_person (s : dsess) (u : N) (idx : nat) (p : person) : person :=
  match nth_error (d_persons s) idx with
  | None => p
  | Some (n, a) =>
      let p1 := Pers (p_name p) a (p_part p) (p_citizen p) in
      if p_citizen p1 then p1
      else if Z.of_nat idx <? d_i s then Pers n a false true
      else p1
  end.

(** An access to an expired person loads it, simdummy_session.py:45-72
    [_load_from_backend]; the loads of the city and of the wrapper,
    simdummy_session.py:92-122, are accesses to persons. *)
Definition d_read (u : N) (s : dsess) : dsess :=
  if mem u (d_expired s) then
    DS (d_persons s) (d_i s) (d_map s) (d_steps s)
       (match assoc u (d_map s), assoc u (d_view s) with
        | Some idx, Some p => put u (load_person s u idx p) (d_view s)
        | _, _ => d_view s
        end)
       (drop_uid u (d_expired s)) (d_added s) (d_changed s) (d_ran s)
  else s.

(** ** The user *)
Inductive dop :=
| DAdd (u : N) (n : name) (a : Z) (part : bool)  (* a new person, part of the wrapper or not *)
| DWrite (u : N) (n : name) (a : Z)              (* change name and age *)
| DDelete (u : N)
| DSteps (k : Z)                                 (* change numSteps of the wrapper *)
| DRead (u : N)
| DRun.

Definition d_step (s : dsess) (o : dop) : dsess :=
  match o with
  | DAdd u n a part =>
      if mem u (map fst (d_view s)) then s
      else DS (d_persons s) (d_i s) (d_map s) (d_steps s) (d_view s ++ [(u, Pers n a part false)]) (d_expired s)
              (d_added s ++ [u]) (d_changed s || (d_ran s && part)) (d_ran s)
  | DWrite u n a =>
      let s1 := d_read u s in
      match assoc u (d_view s1) with
      | None => s1
      | Some p => DS (d_persons s1) (d_i s1) (d_map s1) (d_steps s1)
                     (put u (Pers n a (p_part p) (p_citizen p)) (d_view s1)) (d_expired s1) (d_added s1)
                     (d_changed s1 || negb (mem u (d_added s1))) (d_ran s1)
      end
  | DDelete u =>
      match assoc u (d_view s) with
      | None => s
      | Some p => DS (d_persons s) (d_i s) (d_map s) (d_steps s)
                     (filter (fun e => negb (fst e =? u)%N) (d_view s)) (drop_uid u (d_expired s))
                     (drop_uid u (d_added s)) (d_changed s || negb (mem u (d_added s))) (d_ran s)
      end
  | DSteps k => DS (d_persons s) (d_i s) (d_map s) k (d_view s) (d_expired s) (d_added s)
                   (d_changed s || d_ran s) (d_ran s)
  | DRead u => d_read u s
  | DRun => fst (d_run s)
  end.
Definition d_exec (s : dsess) (os : list dop) : dsess := fold_left d_step os s.
