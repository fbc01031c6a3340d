(** Shared vocabulary: Python exceptions as values. *)
From Coq Require Import List NArith.
Import ListNotations.

(** The Python exception classes that the modelled functions can raise.
    [OutOfFuel] is not a Python exception: it marks exhaustion of the explicit
    fuel of a modelled loop, and no theorem treats it as a normal result. *)
Inductive exn : Type :=
| ValueError | TypeError | KeyError | IndexError | AttributeError
| RuntimeError | OverflowError | NotImplementedError | UnicodeError
| AssertionError | StopIteration | OSError | ConnectionClosed
| ResultEmptyError | MultipleResultsError | RecursionError
| OtherError (tag : N)
| OutOfFuel.

(** A computation that returns or raises. *)
Inductive res (A : Type) : Type :=
| Ok (a : A)
| Err (e : exn).
Arguments Ok {A} a.
Arguments Err {A} e.

Definition bind {A B} (m : res A) (f : A -> res B) : res B :=
  match m with Ok a => f a | Err e => Err e end.

Declare Scope res_scope.
Delimit Scope res_scope with res.
Notation "x <- m ;; k" := (bind m (fun x => k))
  (at level 100, m at next level, right associativity) : res_scope.
Notation "' p <- m ;; k" := (bind m (fun x => let p := x in k))
  (at level 100, p pattern, m at next level, right associativity) : res_scope.

Definition rmap {A B} (f : A -> B) (m : res A) : res B :=
  match m with Ok a => Ok (f a) | Err e => Err e end.

(** [list(map(f, l))] with the first exception propagating. *)
Fixpoint mapM {A B} (f : A -> res B) (l : list A) : res (list B) :=
  match l with
  | [] => Ok []
  | x :: xs => match f x with
               | Err e => Err e
               | Ok y => match mapM f xs with
                         | Err e => Err e
                         | Ok ys => Ok (y :: ys)
                         end
               end
  end.

Definition is_ok {A} (m : res A) : bool :=
  match m with Ok _ => true | Err _ => false end.

Lemma bind_ok {A B} (m : res A) (f : A -> res B) b :
  bind m f = Ok b -> exists a, m = Ok a /\ f a = Ok b.
Proof. destruct m as [a|e]; cbn; [eauto | discriminate]. Qed.

Lemma mapM_ok_length {A B} (f : A -> res B) l r :
  mapM f l = Ok r -> length r = length l.
Proof.
  revert r; induction l as [|x xs IH]; cbn; intros r H.
  - injection H as <-; reflexivity.
  - destruct (f x) as [y|e]; [|discriminate].
    destruct (mapM f xs) as [ys|e]; [|discriminate].
    injection H as <-; cbn; rewrite (IH ys); reflexivity.
Qed.

Lemma Ok_inj {A} (a b : A) : Ok a = Ok b -> a = b.
Proof. congruence. Qed.
