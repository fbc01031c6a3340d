(** Several sessions on one database: every user has a session of her own
    (sqlite_session.py:17-29, sqlalchemy and other backends of db_wrapper_session.py),
    all of them connected to the same stored triples.

    Model: the stored triples are shared; an operation of session i (wstep of
    Wrapper.v: osp/core/session/db/db_wrapper_session.py:12-67,
    wrapper_session.py:71-158) runs as a whole, on what is stored at that moment.
    Simplification: operations are not interleaved with each other; the database
    serialises transactions (trusted). *)
From stdpp Require Import base sets list gmap countable.
From Verif Require Import Prelude Cuds Wrapper.

(** All sessions, numbered, and the database. *)
Definition shared : Type := (nat -> wsess) * graph.
Definition sh_init (d : graph) : shared := (fun _ => w_empty d, d).
(** Session i as it is when its next operation starts. *)
Definition sess_of (s : shared) (i : nat) : wsess := set_db (fst s i) (snd s).
(** Session i does o. *)
Definition mstep (isW : cls -> bool) (O : onto) (s : shared) (a : nat * wop) : shared :=
  let w' := wstep isW O (sess_of s (fst a)) (snd a) in
  (fun j => if decide (j = fst a) then w' else fst s j, db w').
Definition mrun (isW : cls -> bool) (O : onto) (s : shared) (l : list (nat * wop)) : shared :=
  foldl (mstep isW O) s l.
