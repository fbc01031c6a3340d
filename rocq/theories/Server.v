(** The server side of the transport layer:
    osp/core/session/transport/transport_session_server.py.

    The wrapped session class is abstract: [S] is the state of a session object
    and the Section variables below are its methods.  Different session objects
    are assumed not to share Python state (a database they both talk to is not
    part of [S]). *)
From stdpp Require Import base list gmap.
From Verif Require Import Prelude Utf8 Files.

(** transport_utils.py:22-24 *)
Definition INITIALIZE_COMMAND : str := [95; 105; 110; 105; 116]%N.   (* "_init" *)
Definition LOAD_COMMAND : str := [95; 108; 111; 97; 100]%N.          (* "_load" *)
Definition HANDSHAKE_COMMAND : str :=
  [95; 104; 97; 110; 100; 115; 104; 97; 107; 101]%N.                 (* "_handshake" *)
(** "ERROR: " *)
Definition ERROR_PREFIX : str := [69; 82; 82; 79; 82; 58; 32]%N.

Section Server.
  Context {S I : Type}.
  (** [I]: the parsed payload of an "_init" request. *)
  Variable parse_init : str -> res I.
  Variable has_user_args : I -> bool.     (* data["args"] or data["kwargs"] *)
  Variable has_session_kwargs : bool.     (* bool(self._session_kwargs) *)
  Variable construct : positive -> I -> res S.           (* session_cls(...) *)
  (** deserialize(data["root"]) followed by serialize_buffers(ENGINE): new
      session state and the JSON text after its opening brace, or exception *)
  Variable init_root : S -> I -> S * res str.
  (** hasattr(session, command) and callable(getattr(session, command)) *)
  Variable session_has : S -> str -> bool.
  Variable session_callable : S -> str -> bool.
  (** hasattr(WrapperSession, command) *)
  Variable wrapper_has : str -> bool.
  (** _run_command (lines 116-138): deserialize_buffers, the call,
      serialize_buffers. *)
  Variable exec : S -> str -> str -> S * res str.
  (** _load_from_session (lines 149-160) *)
  Variable load : S -> str -> S * res str.
  (** session_cls.handshake, JSON text after the opening brace *)
  Variable handshake : str -> positive -> res str.
  (** session.close(): may raise *)
  Variable close : S -> option exn.
  (** the text "Type: message" of an exception *)
  Variable exn_text : exn -> str.

  (** What was invoked on which connection's session (a ghost log). *)
  Inductive call :=
  | CHandshake | CInit | CLoad | CMethod (s : S) (command : str) | CClose.

  (** A session object with a ghost flag telling if close() was called on it. *)
  Record sobj := SO { so_state : S; so_closed : bool }.

  Record srv := Srv { sessions : gmap positive sobj; log : list (positive * call) }.

  Inductive event :=
  | Request (c : positive) (command data : str)
  | Disconnect (c : positive).

  Definition conn (e : event) : positive :=
    match e with Request c _ _ => c | Disconnect c => c end.

  Definition note (s : srv) (c : positive) (k : call) : srv :=
    Srv (sessions s) (log s ++ [(c, k)]).
  Definition put (s : srv) (c : positive) (o : sobj) : srv :=
    Srv (<[c := o]> (sessions s)) (log s).

  (** A successful response is a JSON object, hence starts with "{" (123). *)
  Definition json_obj (m : res str) : res str := rmap (cons 123%N) m.

  (** transport_session_server.py:162-200 [_init_session] *)
  Definition init_session (s : srv) (data : str) (c : positive) : srv * res str :=
    match parse_init data with
    | Err e => (s, Err e)
    | Ok d =>
        let '(s1, cl) :=
          match sessions s !! c with
          | Some o => (note (put s c (SO (so_state o) true)) c CClose,
                       close (so_state o))
          | None => (s, None)
          end in
        match cl with
        | Some e => (s1, Err e)
        | None =>
            if has_session_kwargs && has_user_args d then (s1, Err ValueError)
            else match construct c d with
                 | Err e => (s1, Err e)
                 | Ok st =>
                     let '(st', r) := init_root st d in
                     (note (put s1 c (SO st' false)) c CInit, json_obj r)
                 end
        end
    end.

  (** transport_session_server.py:140-160 [_load_from_session] *)
  Definition load_from_session (s : srv) (data : str) (c : positive) : srv * res str :=
    match sessions s !! c with
    | None => (s, Err KeyError)
    | Some o =>
        let '(st', r) := load (so_state o) data in
        (note (put s c (SO st' (so_closed o))) c CLoad, json_obj r)
    end.

  (** transport_session_server.py:116-138 [_run_command] *)
  Definition run_command (s : srv) (data command : str) (c : positive) : srv * res str :=
    match sessions s !! c with
    | None => (s, Err KeyError)
    | Some o =>
        let '(st', r) := exec (so_state o) command data in
        (note (put s c (SO st' (so_closed o))) c (CMethod (so_state o) command), json_obj r)
    end.

  (** transport_session_server.py:93-114, the dispatch of [handle_request];
      [OtherError 1] marks the final "ERROR: Invalid command" of line 114 *)
  Definition dispatch (s : srv) (command data : str) (c : positive)
    : srv * res str :=
      if bool_decide (command = HANDSHAKE_COMMAND) then
        (note s c CHandshake, json_obj (handshake data c))
      else if bool_decide (command = INITIALIZE_COMMAND) then init_session s data c
      else if bool_decide (command = LOAD_COMMAND) then load_from_session s data c
      else match sessions s !! c with
           | Some o =>
               if negb (starts_with [95%N] command)
                  && session_has (so_state o) command
                  && negb (wrapper_has command)
                  && session_callable (so_state o) command
               then run_command s data command c
               else (s, Err (OtherError 1))
           | None => (s, Err (OtherError 1))
           end.

  (** transport_session_server.py:82-114 [handle_request]: exceptions become a
      text starting with "ERROR: ". *)
  Definition handle_request (s : srv) (command data : str) (c : positive)
    : srv * str :=
    let '(s', r) := dispatch s command data c in
    (s', match r with
         | Ok x => x
         | Err e => ERROR_PREFIX ++ exn_text e
         end).

  (** transport_session_server.py:69-80 [handle_disconnect].  An exception of
      close() propagates, and the entry stays. *)
  Definition handle_disconnect (s : srv) (c : positive) : srv * option exn :=
    match sessions s !! c with
    | Some o =>
        let s1 := note s c CClose in
        match close (so_state o) with
        | Some e => (put s1 c (SO (so_state o) true), Some e)
        | None => (Srv (delete c (sessions s1)) (log s1), None)
        end
    | None => (s, None)
    end.

  Definition step (s : srv) (e : event) : srv * option str :=
    match e with
    | Request c cmd data => let '(s', r) := handle_request s cmd data c in (s', Some r)
    | Disconnect c => (fst (handle_disconnect s c), None)
    end.

  Definition init : srv := Srv ∅ [].

  Fixpoint run (s : srv) (h : list event) : srv * list (positive * option str) :=
    match h with
    | [] => (s, [])
    | e :: h' => let '(s1, r) := step s e in
                 let '(s2, rs) := run s1 h' in (s2, (conn e, r) :: rs)
    end.

  (** * Proofs *)

  (** One step only reads and writes the own connection. *)
  Lemma step_local s1 s2 e :
    sessions s1 !! conn e = sessions s2 !! conn e ->
    snd (step s1 e) = snd (step s2 e) /\
    sessions (fst (step s1 e)) !! conn e = sessions (fst (step s2 e)) !! conn e.
  Proof.
    intros Heq. destruct e as [c cmd data|c]; simpl in *.
    - unfold handle_request, dispatch, init_session, load_from_session, run_command.
      rewrite <- Heq.
      destruct (bool_decide (cmd = HANDSHAKE_COMMAND)).
      { simpl. split; [done|]. done. }
      destruct (bool_decide (cmd = INITIALIZE_COMMAND)).
      { destruct (parse_init data) as [d|e]; [|simpl; split; [done|done]].
        destruct (sessions s1 !! c) as [o|] eqn:E1.
        - destruct (close (so_state o)) as [e|].
          { simpl. by rewrite !lookup_insert. }
          destruct (has_session_kwargs && has_user_args d).
          { simpl. by rewrite !lookup_insert. }
          destruct (construct c d) as [st|e].
          + destruct (init_root st d) as [st' r]. simpl. by rewrite !lookup_insert.
          + simpl. by rewrite !lookup_insert.
        - destruct (has_session_kwargs && has_user_args d).
          { simpl. split; [done|]. congruence. }
          destruct (construct c d) as [st|e].
          + destruct (init_root st d) as [st' r]. simpl. by rewrite !lookup_insert.
          + simpl. split; [done|]. congruence. }
      destruct (bool_decide (cmd = LOAD_COMMAND)).
      { destruct (sessions s1 !! c) as [o|] eqn:E1.
        - destruct (load (so_state o) data) as [st' r]. simpl. by rewrite !lookup_insert.
        - simpl. split; [done|]. congruence. }
      destruct (sessions s1 !! c) as [o|] eqn:E1.
      + destruct (_ && _).
        * destruct (exec (so_state o) cmd data) as [st' r]. simpl.
          by rewrite !lookup_insert.
        * simpl. split; [done|]. congruence.
      + simpl. split; [done|]. congruence.
    - unfold handle_disconnect. rewrite <- Heq.
      destruct (sessions s1 !! c) as [o|] eqn:E1.
      + destruct (close (so_state o)) as [e|]; simpl.
        * by rewrite !lookup_insert.
        * by rewrite !lookup_delete.
      + simpl. split; [done|]. congruence.
  Qed.

  Lemma step_other s e c :
    c <> conn e -> sessions (fst (step s e)) !! c = sessions s !! c.
  Proof.
    intros Hne. destruct e as [c0 cmd data|c0]; simpl in *.
    - unfold handle_request, dispatch, init_session, load_from_session, run_command.
      destruct (bool_decide (cmd = HANDSHAKE_COMMAND)); [done|].
      destruct (bool_decide (cmd = INITIALIZE_COMMAND)).
      { destruct (parse_init data) as [d|e]; [|done].
        destruct (sessions s !! c0) as [o|] eqn:E1.
        - destruct (close (so_state o)) as [e|].
          { simpl. by rewrite lookup_insert_ne. }
          destruct (has_session_kwargs && has_user_args d).
          { simpl. by rewrite lookup_insert_ne. }
          destruct (construct c0 d) as [st|e].
          + destruct (init_root st d) as [st' r]. simpl. by rewrite !lookup_insert_ne.
          + simpl. by rewrite lookup_insert_ne.
        - destruct (has_session_kwargs && has_user_args d); [done|].
          destruct (construct c0 d) as [st|e]; [|done].
          destruct (init_root st d) as [st' r]. simpl. by rewrite lookup_insert_ne. }
      destruct (bool_decide (cmd = LOAD_COMMAND)).
      { destruct (sessions s !! c0) as [o|] eqn:E1; [|done].
        destruct (load (so_state o) data) as [st' r]. simpl. by rewrite lookup_insert_ne. }
      destruct (sessions s !! c0) as [o|] eqn:E1; [|done].
      destruct (_ && _); [|done].
      destruct (exec (so_state o) cmd data) as [st' r]. simpl. by rewrite lookup_insert_ne.
    - unfold handle_disconnect.
      destruct (sessions s !! c0) as [o|] eqn:E1; [|done].
      destruct (close (so_state o)) as [e|]; simpl.
      + by rewrite lookup_insert_ne.
      + by rewrite lookup_delete_ne.
  Qed.

  (** Non-interference: what connection [c] observes, and its session, only
      depend on its own events. *)
  Lemma noninterference h c s1 s2 :
    sessions s1 !! c = sessions s2 !! c ->
    let own := filter (fun e => conn e = c) h in
    filter (fun r => fst r = c) (snd (run s1 h)) = snd (run s2 own) /\
    sessions (fst (run s1 h)) !! c = sessions (fst (run s2 own)) !! c.
  Proof.
    cbv zeta. revert s1 s2. induction h as [|e h IH]; intros s1 s2 Heq.
    { by split. }
    simpl. destruct (step s1 e) as [s1' r1] eqn:E1.
    destruct (decide (conn e = c)) as [Hc|Hc].
    - rewrite filter_cons_True by done. simpl.
      destruct (step s2 e) as [s2' r2] eqn:E2.
      pose proof (step_local s1 s2 e) as [Hr Hs]; [by rewrite Hc|].
      rewrite E1, E2 in Hr, Hs. simpl in Hr, Hs. subst r2.
      specialize (IH s1' s2'). rewrite Hc in Hs. specialize (IH Hs).
      destruct (run s1' h) as [t1 rs1]. destruct (run s2' _) as [t2 rs2].
      simpl in *. destruct IH as [IH1 IH2]. split; [|done].
      rewrite filter_cons_True by done. by rewrite IH1.
    - rewrite filter_cons_False by done.
      pose proof (step_other s1 e c) as Ho. rewrite E1 in Ho. simpl in Ho.
      specialize (IH s1' s2). rewrite Ho in IH by congruence. specialize (IH Heq).
      destruct (run s1' h) as [t1 rs1]. simpl in *.
      by rewrite filter_cons_False.
  Qed.

  (** The log of a step. *)
  Definition allowed (c : positive) (k : call) : Prop :=
    match k with
    | CMethod st cmd =>
        starts_with [95%N] cmd = false /\ session_has st cmd = true /\
        wrapper_has cmd = false /\ session_callable st cmd = true
    | _ => True
    end.

  Lemma step_log s e :
    exists l, log (fst (step s e)) = log s ++ l /\
      Forall (fun ck => fst ck = conn e /\ allowed (fst ck) (snd ck)) l.
  Proof.
    destruct e as [c cmd data|c]; simpl.
    - unfold handle_request, dispatch, init_session, load_from_session, run_command.
      destruct (bool_decide (cmd = HANDSHAKE_COMMAND)).
      { eexists; split; [done|]. by repeat constructor. }
      destruct (bool_decide (cmd = INITIALIZE_COMMAND)).
      { destruct (parse_init data) as [d|e].
        2:{ exists []. rewrite app_nil_r. by split. }
        destruct (sessions s !! c) as [o|] eqn:E1.
        - destruct (close (so_state o)) as [e|].
          { eexists; split; [done|]. by repeat constructor. }
          destruct (has_session_kwargs && has_user_args d).
          { eexists; split; [done|]. by repeat constructor. }
          destruct (construct c d) as [st|e].
          + destruct (init_root st d) as [st' r]. simpl.
            rewrite <- app_assoc. eexists; split; [done|]. by repeat constructor.
          + eexists; split; [done|]. by repeat constructor.
        - destruct (has_session_kwargs && has_user_args d).
          { exists []. rewrite app_nil_r. by split. }
          destruct (construct c d) as [st|e].
          + destruct (init_root st d) as [st' r]. simpl.
            eexists; split; [done|]. by repeat constructor.
          + exists []. rewrite app_nil_r. by split. }
      destruct (bool_decide (cmd = LOAD_COMMAND)).
      { destruct (sessions s !! c) as [o|] eqn:E1.
        - destruct (load (so_state o) data) as [st' r]. simpl.
          eexists; split; [done|]. by repeat constructor.
        - exists []. rewrite app_nil_r. by split. }
      destruct (sessions s !! c) as [o|] eqn:E1.
      2:{ exists []. rewrite app_nil_r. by split. }
      destruct (negb (starts_with [95%N] cmd) && session_has (so_state o) cmd
                && negb (wrapper_has cmd) && session_callable (so_state o) cmd) eqn:Eb.
      2:{ exists []. rewrite app_nil_r. by split. }
      destruct (exec (so_state o) cmd data) as [st' r]. simpl.
      eexists; split; [done|]. constructor; [|constructor]. simpl. split; [done|].
      repeat (apply andb_true_iff in Eb as [Eb ?]).
      apply negb_true_iff in Eb. repeat split; try done. by apply negb_true_iff.
    - unfold handle_disconnect. destruct (sessions s !! c) as [o|] eqn:E1.
      2:{ exists []. rewrite app_nil_r. by split. }
      destruct (close (so_state o)) as [e|]; simpl;
        (eexists; split; [done|]; by repeat constructor).
  Qed.

  Lemma run_log h s :
    exists l, log (fst (run s h)) = log s ++ l /\
      Forall (fun ck => allowed (fst ck) (snd ck)) l.
  Proof.
    revert s; induction h as [|e h IH]; intros s; simpl.
    { exists []. rewrite app_nil_r. by split. }
    destruct (step_log s e) as (l1 & H1 & F1).
    destruct (step s e) as [s1 r]. simpl in *.
    destruct (IH s1) as (l2 & H2 & F2). destruct (run s1 h) as [s2 rs]. simpl in *.
    exists (l1 ++ l2). rewrite H2, H1, app_assoc. split; [done|].
    apply Forall_app; split; [|done]. eapply Forall_impl; [exact F1|].
    intros [??] [_ ?]. done.
  Qed.

  (** A request that is neither one of the three internal commands nor a
      permitted method changes nothing. *)
  Lemma rejected s c cmd data :
    cmd <> HANDSHAKE_COMMAND -> cmd <> INITIALIZE_COMMAND -> cmd <> LOAD_COMMAND ->
    (match sessions s !! c with
     | Some o => starts_with [95%N] cmd = true \/ session_has (so_state o) cmd = false
                 \/ wrapper_has cmd = true \/ session_callable (so_state o) cmd = false
     | None => True
     end) ->
    handle_request s cmd data c = (s, ERROR_PREFIX ++ exn_text (OtherError 1)).
  Proof.
    intros H1 H2 H3 H4. unfold handle_request, dispatch.
    rewrite !bool_decide_false by done.
    destruct (sessions s !! c) as [o|]; [|done].
    replace (negb (starts_with [95%N] cmd) && session_has (so_state o) cmd
             && negb (wrapper_has cmd) && session_callable (so_state o) cmd) with false;
      [done|].
    destruct H4 as [->|[->|[->| ->]]]; simpl; rewrite ?andb_false_r; done.
  Qed.

  (** Before initialisation nothing but handshake and init has an effect. *)
  Lemma uninitialised s c cmd data :
    sessions s !! c = None -> cmd <> HANDSHAKE_COMMAND -> cmd <> INITIALIZE_COMMAND ->
    fst (handle_request s cmd data c) = s /\
    starts_with ERROR_PREFIX (snd (handle_request s cmd data c)) = true.
  Proof.
    intros Hn H1 H2. unfold handle_request, dispatch, load_from_session. rewrite Hn.
    rewrite (bool_decide_false (cmd = HANDSHAKE_COMMAND)) by done.
    rewrite (bool_decide_false (cmd = INITIALIZE_COMMAND)) by done.
    destruct (bool_decide (cmd = LOAD_COMMAND)); simpl;
      (split; done).
  Qed.

  (** transport_session_client.py:144-145: the client raises iff the response
      starts with "ERROR: ". *)
  Definition client_raises (response : str) : bool := starts_with ERROR_PREFIX response.

  Lemma json_obj_brace m x : json_obj m = Ok x -> exists b, x = 123%N :: b.
  Proof. destruct m; intros Hx; simplify_eq/=; eauto. Qed.

  Lemma dispatch_json s cmd data c x :
    snd (dispatch s cmd data c) = Ok x -> exists b, x = 123%N :: b.
  Proof.
    unfold dispatch, init_session, load_from_session, run_command.
    destruct (bool_decide (cmd = HANDSHAKE_COMMAND)); [apply json_obj_brace|].
    destruct (bool_decide (cmd = INITIALIZE_COMMAND)).
    { destruct (parse_init data) as [d|e]; [|done].
      destruct (match sessions s !! c with Some o => _ | None => _ end) as [s1 cl].
      destruct cl; [done|]. destruct (has_session_kwargs && has_user_args d); [done|].
      destruct (construct c d) as [st|]; [|done].
      destruct (init_root st d) as [st' r]. apply json_obj_brace. }
    destruct (bool_decide (cmd = LOAD_COMMAND)).
    { destruct (sessions s !! c) as [o|]; [|done].
      destruct (load (so_state o) data) as [st' r]. apply json_obj_brace. }
    destruct (sessions s !! c) as [o|]; [|done].
    destruct (_ && _); [|done].
    destruct (exec (so_state o) cmd data) as [st' r]. apply json_obj_brace.
  Qed.

  (** The client raises exactly if the server failed. *)
  Lemma client_sees_failure s cmd data c :
    client_raises (snd (handle_request s cmd data c))
    = negb (is_ok (snd (dispatch s cmd data c))).
  Proof.
    pose proof (dispatch_json s cmd data c) as Hj.
    unfold handle_request, client_raises.
    destruct (dispatch s cmd data c) as [s' [x|e]]; simpl in *.
    - by destruct (Hj x eq_refl) as [b ->].
    - done.
  Qed.

  (** If re-initialisation fails in the constructor, the connection keeps the
      session that has just been closed. *)
  Lemma failed_reinit s c o data d e :
    sessions s !! c = Some o -> parse_init data = Ok d ->
    close (so_state o) = None -> has_session_kwargs && has_user_args d = false ->
    construct c d = Err e ->
    sessions (fst (handle_request s INITIALIZE_COMMAND data c)) !! c
    = Some (SO (so_state o) true).
  Proof.
    intros Hs Hp Hc Hk He. unfold handle_request, dispatch, init_session.
    rewrite bool_decide_false by done. rewrite bool_decide_true by done.
    rewrite Hp, Hs, Hc, Hk, He. simpl. by rewrite lookup_insert.
  Qed.

  (** Disconnecting closes and forgets exactly that session. *)
  Lemma disconnect_spec s c o :
    sessions s !! c = Some o -> close (so_state o) = None ->
    sessions (fst (handle_disconnect s c)) = delete c (sessions s) /\
    log (fst (handle_disconnect s c)) = log s ++ [(c, CClose)].
  Proof. intros Hc Hcl. unfold handle_disconnect. by rewrite Hc, Hcl. Qed.
End Server.
