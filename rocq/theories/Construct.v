(** How the server constructs the session of a connection:
    osp/core/session/transport/transport_session_server.py:162-197 [_init_session],
    the part that chooses the arguments of the session class, and the binding of
    the arguments of a Python call. *)
From Coq Require Import String.
From stdpp Require Import base list.
From Verif Require Import Prelude Utf8 Text.
Local Open Scope list_scope.

Definition CONNECTION_ID : str := lit "connection_id".
Definition AUTH : str := lit "auth".
Definition SELF : str := lit "self".

(** [inspect.getfullargspec(session_cls.__init__)] (line 179): the named parameters,
    self first; those by keyword only; whether there are [*args] and [**kwargs];
    which parameters have a default.  Simplification: no positional-only
    parameters. *)
Record sig := Sig { s_args : list str; s_kwonly : list str;
                    s_varargs : bool; s_varkw : bool; s_default : list str }.
Definition params (s : sig) : list str := s_kwonly s ++ s_args s.      (* line 180 *)

Section Construct.
  Context {V : Type}.
  Notation kwargs := (list (str * V)).   (* a dict: the keys are distinct *)

  (** The dictionaries of two dicts unpacked in one call: a key in both is a TypeError. *)
  Definition merge (d1 d2 : kwargs) : res kwargs :=
    if decide (NoDup ((d1 ++ d2).*1)) then Ok (d1 ++ d2) else Err TypeError.

  (** Python's binding of the arguments of [__init__] (the instance is the first
      positional one): the values by name, those that go to [**kwargs] included,
      and what goes to [*args]. *)
  Definition bind_call (s : sig) (inst : V) (pos : list V) (kw : kwargs) : res (kwargs * list V) :=
    let vals := inst :: pos in
    let bound := zip (s_args s) vals in
    let rest := drop (length (s_args s)) vals in
    if decide (rest <> [] /\ s_varargs s = false) then Err TypeError
    else if decide (Exists (fun k => k ∈ bound.*1) (kw.*1)) then Err TypeError
    else if decide (Exists (fun k => k ∉ params s /\ s_varkw s = false) (kw.*1)) then Err TypeError
    else if decide (Forall (fun k => k ∈ (bound ++ kw).*1 \/ k ∈ s_default s) (params s))
         then Ok (bound ++ kw, rest)
         else Err TypeError.

  (** transport_session_server.py:162-197: [fixed] = self._session_kwargs, [args],
      [kw] and [auth] = the data of the client.  Simplification: the data has the
      entries the client puts there (transport_session_client.py:74-95): a list, a
      dict, any value.  What happens after the construction is in Server.v. *)
  Definition construct (s : sig) (fixed : kwargs) (inst cid : V)
      (args : list V) (kw : kwargs) (auth : V) : res (kwargs * list V) :=
    let user := (if decide (CONNECTION_ID ∈ params s) then [(CONNECTION_ID, cid)] else [])
                ++ (if decide (AUTH ∈ params s) then [(AUTH, auth)] else []) in
    if decide (fixed <> [] /\ (args <> [] \/ kw <> [])) then Err ValueError
    else if decide (fixed <> [])
         then match merge fixed user with
              | Ok d => bind_call s inst [] d
              | Err e => Err e
              end
         else match merge kw user with
              | Ok d => bind_call s inst args d
              | Err e => Err e
              end.
End Construct.
