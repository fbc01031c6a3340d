(** uids, IRIs and the substitution of the root's IRI, on the level of text.
    Models osp/core/utils/general.py:12, 89-110, osp/core/session/db/
    triplestore_wrapper_session.py:42-100, osp/core/session/session.py:140-151
    and the parts of Python's uuid and int() that they use.
    A uid is a number below 2^128. *)
From Coq Require Import List NArith Lia Bool String.
From Verif Require Import Prelude Utf8 Text.
Import ListNotations.
Local Open Scope nat_scope.
Local Open Scope list_scope.

(** ** uuid.UUID.__str__ *)

(** One hexadecimal digit, as '%x' prints it. *)
Definition hexc (d : N) : N := if (d <? 10)%N then (48 + d)%N else (87 + d)%N.
(** '%0kx' % n for n < 16^k *)
Fixpoint hexfix (k : nat) (n : N) : str :=
  match k with
  | 0 => []
  | S k' => hexfix k' (n / 16)%N ++ [hexc (n mod 16)]
  end.
Definition sub (i j : nat) (s : str) : str := firstn (j - i) (skipn i s).
Definition uuid_str (u : N) : str :=
  let h := hexfix 32 u in
  sub 0 8 h ++ lit "-" ++ sub 8 12 h ++ lit "-" ++ sub 12 16 h ++ lit "-" ++
  sub 16 20 h ++ lit "-" ++ sub 20 32 h.

(** ** int(s, 16) *)

(** Simplification: characters outside ASCII are no digits and no blanks (Python
    accepts the decimal digits and blanks of other scripts). *)
Definition hexval (c : N) : option N :=
  if ((48 <=? c) && (c <=? 57))%N then Some (c - 48)%N
  else if ((97 <=? c) && (c <=? 102))%N then Some (c - 87)%N
  else if ((65 <=? c) && (c <=? 70))%N then Some (c - 55)%N
  else None.
(** Digits with single underscores between them; [first]: a digit must follow. *)
Fixpoint hexdigits (acc : N) (first : bool) (s : str) : option N :=
  match s with
  | [] => if first then None else Some acc
  | c :: s' =>
      if N.eqb c 95 then (if first then None else hexdigits acc true s')
      else match hexval c with
           | Some d => hexdigits (acc * 16 + d)%N false s'
           | None => None
           end
  end.
Definition is_blank (c : N) : bool := ((9 <=? c) && (c <=? 13) || N.eqb c 32)%N.
Fixpoint lstrip (f : N -> bool) (s : str) : str :=
  match s with
  | [] => []
  | c :: s' => if f c then lstrip f s' else s
  end.
Definition strip (f : N -> bool) (s : str) : str := rev (lstrip f (rev (lstrip f s))).
(** A '-' cannot occur here (see [uuid_of_text]). *)
Definition int16 (s : str) : option N :=
  let s := strip is_blank s in
  let s := if startswith (lit "+") s then after (lit "+") s else s in
  let s := if startswith (lit "0x") s || startswith (lit "0X") s
           then (let t := skipn 2 s in if startswith (lit "_") t then skipn 1 t else t)
           else s in
  hexdigits 0 true s.

(** ** uuid.UUID(hex=s) *)

(** s.replace(p, '') *)
Fixpoint remove_all_fuel (fuel : nat) (p s : str) : str :=
  match fuel with
  | 0 => s
  | S fuel' =>
      match s with
      | [] => []
      | c :: s' => if startswith p s then remove_all_fuel fuel' p (after p s)
                   else c :: remove_all_fuel fuel' p s'
      end
  end.
Definition remove_all (p s : str) : str := remove_all_fuel (S (List.length s)) p s.
Definition is_brace (c : N) : bool := (N.eqb c 123 || N.eqb c 125)%N.
Definition uuid_of_text (s : str) : res N :=
  let h := remove_all (lit "uuid:") (remove_all (lit "urn:") s) in
  let h := remove_all (lit "-") (strip is_brace h) in
  if Nat.eqb (List.length h) 32 then
    match int16 h with Some n => Ok n | None => Err ValueError end
  else Err ValueError.

(** ** osp/core/utils/general.py *)

(** 12 [CUDS_IRI_PREFIX] *)
Definition cuds_prefix : str := lit "http://www.osp-core.com/cuds/#".
(** 89-98 [iri_from_uid] *)
Definition iri_from_uid (u : N) : str := cuds_prefix ++ uuid_str u.
(** 101-110 [uid_from_iri]: the prefix is cut off without being compared. *)
Definition uid_from_iri (iri : str) : res N := uuid_of_text (after cuds_prefix iri).

(** ** RDF terms (rdflib: all of them are subclasses of str) *)
Inductive term :=
| TIri (s : str)
| TLit (s : str) (datatype : option str) (lang : option str)
| TBnode (s : str).
Definition term_text (t : term) : str :=
  match t with TIri s => s | TLit s _ _ => s | TBnode s => s end.
Definition ttriple : Type := term * term * term.

(** triplestore_wrapper_session.py:70-77 [_substitute_root_iri] and 79-85
    [_substitute_zero_iri]: every term whose text starts with the prefix and names
    the uid [from] is replaced by the IRI of [to]. *)
Definition subst_term (from to : N) (t : term) : res term :=
  if startswith cuds_prefix (term_text t) then
    match uid_from_iri (term_text t) with
    | Err e => Err e
    | Ok u => Ok (if N.eqb u from then TIri (iri_from_uid to) else t)
    end
  else Ok t.
Definition subst_triple (from to : N) (t : ttriple) : res ttriple :=
  let '(s, p, o) := t in
  match subst_term from to s, subst_term from to p, subst_term from to o with
  | Err e, _, _ => Err e
  | _, Err e, _ => Err e
  | _, _, Err e => Err e
  | Ok s', Ok p', Ok o' => Ok (s', p', o')
  end.
Definition substitute_root (root : N) : ttriple -> res ttriple := subst_triple root 0.
Definition substitute_zero (root : N) : ttriple -> res ttriple := subst_triple 0 root.
