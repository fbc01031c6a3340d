(** C78: the arguments of a session that the server constructs for a client. *)
From Coq Require Import String.
From stdpp Require Import base list.
From Verif Require Import Prelude Utf8 Text Construct.
Local Open Scope list_scope.
Local Open Scope nat_scope.

Section Proofs.
  Context {V : Type}.
  Implicit Types (kw fixed b : list (str * V)) (s : sig).

  Lemma merge_ok (d1 d2 d : list (str * V)) : merge d1 d2 = Ok d -> d = d1 ++ d2 /\ NoDup (d.*1).
  Proof. unfold merge. case_decide; [|done]. intros [= <-]. done. Qed.

  Lemma bind_ok s (inst : V) pos kw b rest :
    bind_call s inst pos kw = Ok (b, rest) ->
    b = zip (s_args s) (inst :: pos) ++ kw /\ rest = drop (length (s_args s)) (inst :: pos)
    /\ (forall k, k ∈ kw.*1 -> k ∉ (zip (s_args s) (inst :: pos)).*1)
    /\ (forall k, k ∈ params s -> k ∈ b.*1 \/ k ∈ s_default s).
  Proof.
    unfold bind_call. case_decide; [done|]. case_decide as H2; [done|]. case_decide; [done|].
    case_decide as H4; [|done]. intros [= <- <-]. split; [done|]. split; [done|]. split.
    - intros k Hk Hb. apply H2. apply Exists_exists. eauto.
    - intros k Hk. by apply (proj1 (Forall_forall _ _) H4).
  Qed.

  Lemma zip_self s (inst : V) pos : head (s_args s) = Some SELF ->
    (SELF, inst) ∈ zip (s_args s) (inst :: pos).
  Proof. destruct (s_args s); [done|]. cbn. intros [= ->]. left. Qed.

  Lemma user_elem s (cid auth : V) k v :
    (k, v) ∈ (if decide (CONNECTION_ID ∈ params s) then [(CONNECTION_ID, cid)] else [])
             ++ (if decide (AUTH ∈ params s) then [(AUTH, auth)] else []) <->
    (k ∈ params s /\ k = CONNECTION_ID /\ v = cid) \/ (k ∈ params s /\ k = AUTH /\ v = auth).
  Proof.
    rewrite elem_of_app.
    destruct (decide (CONNECTION_ID ∈ params s)); destruct (decide (AUTH ∈ params s));
      rewrite ?elem_of_nil, ?elem_of_list_singleton; naive_solver.
  Qed.

  Lemma fst_elem {A B} (l : list (A * B)) k v : (k, v) ∈ l -> k ∈ l.*1.
  Proof. intros H. apply elem_of_list_fmap. exists (k, v). done. Qed.

  Lemma nodup_fst {A B} (l : list (A * B)) k v w :
    NoDup (l.*1) -> (k, v) ∈ l -> (k, w) ∈ l -> v = w.
  Proof.
    induction l as [|[k' x] l IH]; cbn; intros Hn H1 H2; [by apply elem_of_nil in H1|].
    apply NoDup_cons in Hn as [Hk Hn].
    apply elem_of_cons in H1 as [[= -> ->]|H1]; apply elem_of_cons in H2 as [E|H2].
    - by injection E.
    - by apply fst_elem in H2.
    - injection E as -> ->. by apply fst_elem in H1.
    - auto.
  Qed.

  (** A session class with the parameter "connection_id" gets the id of the
      connection of the client, whatever arguments and authentication the client
      sends; and one with the parameter "auth" gets the client's authentication. *)
  Theorem C78_connection_id s fixed (inst cid : V) args kw auth b rest :
    construct s fixed inst cid args kw auth = Ok (b, rest) ->
    (CONNECTION_ID ∈ params s -> forall v, (CONNECTION_ID, v) ∈ b <-> v = cid) /\
    (AUTH ∈ params s -> forall v, (AUTH, v) ∈ b <-> v = auth).
  Proof.
    unfold construct. set (user := _ ++ _). intros H.
    assert (exists d0 pos, (forall x, x ∈ user -> x ∈ d0 ++ user) /\ NoDup ((d0 ++ user).*1) /\
              bind_call s inst pos (d0 ++ user) = Ok (b, rest)) as (d0 & pos & _ & Hn & Hb).
    { case_decide; [done|]. case_decide.
      - destruct (merge fixed user) as [d|] eqn:Em; [|done]. apply merge_ok in Em as [-> Hn].
        exists fixed, []. split; [|done]. intros x Hx. apply elem_of_app. by right.
      - destruct (merge kw user) as [d|] eqn:Em; [|done]. apply merge_ok in Em as [-> Hn].
        exists kw, args. split; [|done]. intros x Hx. apply elem_of_app. by right. }
    apply bind_ok in Hb as (-> & _ & Hd & _).
    assert (G : forall k w, (k, w) ∈ user -> forall v,
              (k, v) ∈ zip (s_args s) (inst :: pos) ++ d0 ++ user <-> v = w).
    { intros k w Hw v.
      assert (Hw' : (k, w) ∈ d0 ++ user) by (apply elem_of_app; by right).
      rewrite elem_of_app. split.
      - intros [Hz|Hv]; [|by eapply nodup_fst].
        exfalso. eapply Hd; [by eapply fst_elem|by eapply fst_elem].
      - intros ->. by right. }
    split; intros Hp; apply G; apply user_elem; naive_solver.
  Qed.

  (** A server started with fixed arguments for its sessions: who sends arguments
      is refused, whatever the class; otherwise the session is constructed from
      the fixed arguments, the connection id and the authentication alone. *)
  Theorem C78_fixed_arguments s fixed (inst cid : V) args kw auth :
    fixed <> [] ->
    (args <> [] \/ kw <> [] -> construct s fixed inst cid args kw auth = Err ValueError) /\
    (forall b rest, construct s fixed inst cid args kw auth = Ok (b, rest) ->
       head (s_args s) = Some SELF ->
       rest = [] /\
       forall k v, (k, v) ∈ b <->
         (k = SELF /\ v = inst) \/ (k, v) ∈ fixed \/
         (k ∈ params s /\ k = CONNECTION_ID /\ v = cid) \/
         (k ∈ params s /\ k = AUTH /\ v = auth)).
  Proof.
    intros Hf. unfold construct. split.
    - intros H. by rewrite decide_True.
    - intros b rest H Hs. case_decide; [done|].
      rewrite (decide_True (P := fixed <> [])) in H by done.
      destruct (merge fixed _) as [d|] eqn:Em; [|done]. apply merge_ok in Em as [-> Hn].
      apply bind_ok in H as (-> & -> & _).
      destruct (s_args s) as [|a l] eqn:Ea; [done|]. cbn in Hs. injection Hs as ->.
      split; [by destruct l|]. intros k v.
      rewrite !elem_of_app, <- elem_of_app, <- (user_elem s).
      cbn. destruct l; cbn; rewrite elem_of_list_singleton; naive_solver.
  Qed.

  (** Without fixed arguments the session is constructed from what the client sends:
      every argument arrives, and there is nothing else. *)
  Theorem C78_client_arguments s (inst cid : V) args kw auth b rest :
    construct s [] inst cid args kw auth = Ok (b, rest) ->
    (forall i v, (inst :: args) !! i = Some v ->
       (exists k, s_args s !! i = Some k /\ (k, v) ∈ b) \/
       (s_args s !! i = None /\ rest !! (i - length (s_args s)) = Some v)) /\
    (forall k v, (k, v) ∈ kw -> (k, v) ∈ b) /\
    (forall k v, (k, v) ∈ b ->
       (exists i, s_args s !! i = Some k /\ (inst :: args) !! i = Some v) \/ (k, v) ∈ kw \/
       (k ∈ params s /\ k = CONNECTION_ID /\ v = cid) \/
       (k ∈ params s /\ k = AUTH /\ v = auth)).
  Proof.
    unfold construct. rewrite decide_False by naive_solver. rewrite decide_False by naive_solver.
    destruct (merge kw _) as [d|] eqn:Em; [|done]. apply merge_ok in Em as [-> Hn].
    intros H. apply bind_ok in H as (-> & -> & _ & _). split; [|split].
    - intros i v Hi. destruct (s_args s !! i) as [k|] eqn:Ek.
      + left. exists k. split; [done|]. apply elem_of_app. left.
        apply elem_of_list_lookup. exists i. apply lookup_zip_with_Some. eauto.
      + right. split; [done|]. apply lookup_ge_None in Ek. rewrite lookup_drop.
        by replace (length (s_args s) + (i - length (s_args s))) with i by lia.
    - intros k v Hk. rewrite !elem_of_app. auto.
    - intros k v Hk. apply elem_of_app in Hk as [Hk|Hk].
      + left. apply elem_of_list_lookup in Hk as (i & Hi).
        apply lookup_zip_with_Some in Hi as (x & y & [= -> ->] & H1 & H2). eauto.
      + right. apply elem_of_app in Hk as [Hk|Hk]; [by left|]. right. by apply user_elem.
  Qed.
End Proofs.

(** Refuted without the parameter: a class that takes "connection_id" through
    [**kwargs] gets what the client claims. *)
Theorem C78_kwargs_refuted :
  let s := Sig [SELF] [] false true [] in
  construct s [] 0 1 [] [(CONNECTION_ID, 2)] 3 = Ok ([(SELF, 0); (CONNECTION_ID, 2)], []).
Proof. vm_compute. reflexivity. Qed.

(** [__init__(self, path, connection_id=None, *, auth=None)]: a client sends the
    path; tries to choose the connection id by name or by position; and a server
    with a fixed path. *)
Definition ex_sig : sig := Sig [SELF; lit "path"; CONNECTION_ID] [AUTH] false false [CONNECTION_ID; AUTH].
Example C78_example :
  construct ex_sig [] 0 1 [7] [] 3
    = Ok ([(SELF, 0); (lit "path", 7); (CONNECTION_ID, 1); (AUTH, 3)], [])
  /\ construct ex_sig [] 0 1 [7] [(CONNECTION_ID, 2)] 3 = Err TypeError
  /\ construct ex_sig [] 0 1 [7; 2] [] 3 = Err TypeError
  /\ construct ex_sig [(lit "path", 9)] 0 1 [] [] 3
    = Ok ([(SELF, 0); (lit "path", 9); (CONNECTION_ID, 1); (AUTH, 3)], [])
  /\ construct ex_sig [(lit "path", 9)] 0 1 [7] [] 3 = Err ValueError.
Proof. vm_compute. repeat split; reflexivity. Qed.

Print Assumptions C78_connection_id.
Print Assumptions C78_fixed_arguments.
Print Assumptions C78_client_arguments.
Print Assumptions C78_kwargs_refuted.
Print Assumptions C78_example.
