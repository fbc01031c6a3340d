(** Simulation and file wrapper sessions:
    osp/core/session/sim_wrapper_session.py and file_wrapper_session.py.

    The methods a wrapper developer writes (_apply_added, _run, _save, ...) are
    arbitrary: each reads the session and the state X of the engine, changes the
    engine, and runs an arbitrary program of the engine side on the session
    ([eprog], PropWrapper.v), which may raise.
    Simplifications: (1) the buffers handed over are the sets of their uids (as in
    Wrapper.v); (2) logging is left out; (3) [s_calls] is not in the code: it
    records which method was called with which argument and whether it raised. *)
From stdpp Require Import base sets list gmap countable.
From Verif Require Import Prelude Cuds Wrapper PropWrapper.

(** A call of one of the abstract methods; r is the wrapper object. *)
Inductive call :=
| CInit (r : uid) (us : gset uid)          (* _initialize of a simulation *)
| CAdded (r : uid) (us : gset uid)         (* _apply_added *)
| CUpdated (r : uid) (us : gset uid)       (* _apply_updated *)
| CDeleted (r : uid) (us : gset uid)       (* _apply_deleted *)
| CRun (r : uid)                           (* _run *)
| COpen | CSave | CClose.                  (* _open, _save, _close of a file *)

Global Instance call_eq_dec : EqDecision call.
Proof. solve_decision. Defined.

(** What the developer's methods do: new engine state and program. *)
Definition methods (X : Type) := call -> X -> wsess -> X * eprog.

Record sim (X : Type) := Sim {
  s_w : wsess; s_x : X; s_ran : bool; s_calls : list (call * bool) }.
Arguments Sim {X}. Arguments s_w {X}. Arguments s_x {X}. Arguments s_ran {X}. Arguments s_calls {X}.

Definition set_w {X} (s : sim X) (w : wsess) : sim X := Sim w (s_x s) (s_ran s) (s_calls s).
Definition set_ran {X} (s : sim X) : sim X := Sim (s_w s) (s_x s) true (s_calls s).

(** sim_wrapper_session.py:14-21, file_wrapper_session.py: a new session *)
Definition sim_new {X} (x : X) : sim X := Sim (w_empty ∅) x false [].

(** The model-only outcome "the developer's method raised". *)
Definition MethodError : exn := OtherError 3.

(** one call of a method *)
Definition invoke {X} (isW : cls -> bool) (K : methods X) (c : call) (s : sim X) : sim X * option exn :=
  let '(x', p) := K c (s_x s) (s_w s) in
  let '(w', raised) := erun isW p (s_w s) in
  (Sim w' x' (s_ran s) (s_calls s ++ [(c, raised)]), if raised then Some MethodError else None).

Fixpoint invoke_all {X} (isW : cls -> bool) (K : methods X) (cs : list call) (s : sim X) : sim X * option exn :=
  match cs with
  | [] => (s, None)
  | c :: cs' => match invoke isW K c s with
                | (s1, Some e) => (s1, Some e)
                | (s1, None) => invoke_all isW K cs' s1
                end
  end.

(** wrapper_session.py:17-31 [consumes_buffers] on a simulation or file session *)
Definition sim_engine {X} (f : sim X -> sim X * option exn) (s : sim X) : sim X * option exn :=
  let '(s', e) := f (set_w s (enter_engine (s_w s))) in
  (set_w s' (set_cur (s_w s') (cur (s_w s))), e).

(** sim_wrapper_session.py:23-40 [run] with wrapper_session.py:449-460
    [_check_cardinalities]; [registry.get] of a missing uid raises KeyError. *)
Definition sim_run {X} (isW : cls -> bool) (K : methods X) : sim X -> sim X * option exn :=
  sim_engine (fun s =>
    match wroot (s_w s) with
    | None => (s, Some RuntimeError)
    | Some r =>
        if decide (r ∈ wreg (s_w s)) then
          let b := ub (s_w s) in
          match invoke_all isW K (if s_ran s then [CAdded r (badd b); CUpdated r (bupd b); CDeleted r (bdel b)]
                                  else [CInit r (badd b)]) s with
          | (s1, Some e) => (s1, Some e)
          | (s1, None) =>
              match invoke isW K (CRun r) (set_w s1 (set_ub (s_w s1) no_bufs)) with
              | (s2, Some e) => (s2, Some e)
              | (s2, None) => (set_w (set_ran s2) (expire_all (s_w s2)), None)
              end
          end
        else (s, Some KeyError)
    end).

(** file_wrapper_session.py:17-32 [save] *)
Definition file_save {X} (isW : cls -> bool) (K : methods X) : sim X -> sim X * option exn :=
  sim_engine (fun s =>
    match wroot (s_w s) with
    | None => (s, Some RuntimeError)
    | Some r =>
        match invoke isW K COpen s with
        | (s0, Some e) => (s0, Some e)
        | (s0, None) =>
            if decide (r ∈ wreg (s_w s0)) then
              let b := ub (s_w s0) in
              match invoke_all isW K [CAdded r (badd b); CUpdated r (bupd b); CDeleted r (bdel b); CSave; CClose] s0 with
              | (s1, Some e) => (s1, Some e)
              | (s1, None) => (set_w s1 (expire_all (set_ub (s_w s1) no_bufs)), None)
              end
            else (s0, Some KeyError)
        end
    end).

(** ** Histories: what the user, and the engine on loading, do between the runs *)
Inductive sop :=
| SStore (u : uid) (ts : graph)      (* a new object: Cuds.__init__ -> session._store *)
| SWrite (u : uid) (g : graph)       (* a write to u: the graph changes, _notify_update *)
| SDelete (u : uid)                  (* delete_cuds_object -> _delete_cuds_triples *)
| SExpire (us : list uid)            (* expire *)
| SEngine (p : eprog)                (* the engine loads something in its own context *)
| SRun.                              (* run() / save() *)

Definition sstep {X} (isW : cls -> bool) (act : sim X -> sim X * option exn) (s : sim X) (o : sop) : sim X :=
  match o with
  | SStore u ts => set_w s (fst (w_store isW (s_w s) u ts))
  | SWrite u g => set_w s (fst (notify_update (set_wgr (s_w s) g) u))
  | SDelete u => set_w s (fst (w_delete_triples (s_w s) u))
  | SExpire us => set_w s (fst (expire (s_w s) (list_to_set us)))
  | SEngine p => set_w s (fst (in_engine (erun isW p) (s_w s)))
  | SRun => fst (act s)
  end.
