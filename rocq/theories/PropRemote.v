(** Theorems about remote sessions (property C63). *)
From stdpp Require Import base sets list gmap countable.
From Verif Require Import Prelude Cuds CudsProofs PropCuds Wrapper WrapperProofs
  WrapperRefine WrapperOps WrapperOps2 WrapperCommit PropWrapper Buffers PropBuffers
  Remote RemoteServer RemoteClient RemoteOps RemoteOps2 RemoteCommit RemoteInit.

(** * Histories of a client and its server *)

(** One operation of the user of the client. *)
Definition rstep (isW : cls -> bool) (O : onto) (dc : uid -> cls) (order : gset uid -> list uid)
  (s : rsys) (o : wop) : rsys :=
  match o with
  | WCreate _ u c attrs => fst (r_create isW s u c attrs)
  | WAdd a q bs => fst (r_add isW O dc order s a q bs)
  | WRemove a uids rf oc => fst (r_remove isW O dc order s a uids rf oc)
  | WSetAttr u a l => fst (r_set_attr isW dc order s u a l)
  | WDelete u => fst (r_delete isW O dc order s u)
  | WGet a uids rf oc => fst (r_get isW O dc order s a uids rf oc)
  | WLoad us => fst (r_load isW dc order s us)
  | WExpire us => (fst (expire (fst s) (list_to_set us)), snd s)
  | WExpireAll => (expire_all (fst s), snd s)
  | WRefresh us => fst (r_refresh isW dc order s us)
  | WCommit _ => fst (r_commit isW dc order s)
  | WExternal _ => s
  end.
Definition rrun isW O dc order (s : rsys) (os : list wop) : rsys := foldl (rstep isW O dc order) s os.

(** The operations considered, after a history in which the uids U have been used:
    as in [wvalid], and new objects get a uid that has never been used.  The first
    commit happens before anything is removed from a root that had been stored by an
    earlier session. *)
Definition rvalid (isW : cls -> bool) (r : uid) (U : gset uid) (s : rsys) (o : wop) : Prop :=
  match o with
  | WCreate _ u c _ => u <> 0%N /\ u ∉ U /\ isW c = false
  | WAdd a _ bs => a ∈ wreg (fst s) /\ (forall b, b ∈ bs -> b ∈ wreg (fst s))
  | WRemove a _ _ _ => a ∈ wreg (fst s)
  | WSetAttr u _ _ => u ∈ wreg (fst s)
  | WDelete u => u ∈ wreg (fst s) /\ u <> r
  | WGet a _ _ _ => a ∈ wreg (fst s)
  | WLoad us => forall u, u ∈ us -> u <> 0%N /\ u ∉ bdel (ub (fst s))
  | WExpire _ | WExpireAll | WRefresh _ => True
  | WCommit None => r ∈ badd (ub (snd s)) ->
      forall p, (r, p) ∈ view r (db (snd s)) -> (r, p) ∈ wgr (fst s)
  | WCommit (Some _) | WExternal _ => False
  end.
Definition uses (o : wop) : gset uid := match o with WCreate _ u _ _ => {[u]} | _ => ∅ end.
Fixpoint rvalid_run isW O dc order (r : uid) (U : gset uid) (s : rsys) (os : list wop) : Prop :=
  match os with
  | [] => True
  | o :: os' => rvalid isW r U s o /\
      rvalid_run isW O dc order r (U ∪ uses o) (rstep isW O dc order s o) os'
  end.

(** A client that has just been connected: its first object is the wrapper r with
    class c and attributes attrs, the server's backend is d. *)
Record rconnects (isW : cls -> bool) (O : onto) (dc : uid -> cls) (order : gset uid -> list uid)
  (d : graph) (r : uid) (c : cls) (attrs : list (attr * lit)) (s : rsys) : Prop := {
  rc_db : good_db isW d;
  rc_bidir : forall a q b, (a, TLink q b) ∈ d <-> (b, TLink (o_inv O q) a) ∈ d;
  rc_fresh : no_uid r d;
  rc_root : r <> 0%N /\ isW c = true;
  rc_s : exists first, (forall u, u ∈ first <-> u ∈ first_level r d) /\
           r_connect isW dc order first d r c attrs = (s, None) }.

(** Python's dictionaries are iterated in some order; the class given to a deleted
    object's uid is not the wrapper's. *)
Record renv (isW : cls -> bool) (O : onto) (dc : uid -> cls) (order : gset uid -> list uid) : Prop := {
  re_order : forall X, order X ≡ₚ elements X;
  re_dc : forall u, isW (dc u) = false;
  re_inv : involutive O;
  re_all : forall q, o_sub O q (o_relationship O) = true }.

(** The states of client and server after all histories since connecting. *)
Definition rserved isW O dc order (d : graph) (r : uid) (s : rsys) : Prop :=
  exists c attrs s0 os, rconnects isW O dc order d r c attrs s0 /\
    rvalid_run isW O dc order r ({[r]} ∪ subjects (view r d)) s0 os /\ s = rrun isW O dc order s0 os.

Record rok (isW : cls -> bool) (O : onto) (r : uid) (U : gset uid) (s : rsys) (S : sess) (J : graph) : Prop := {
  ro_inv : rinv isW s r S J;
  ro_sess : sess_inv O (abs (fst s));
  ro_fresh : fresh_added (fst s) r J;
  ro_J : forall x y, (x, y) ∈ J -> x ∈ U;
  ro_S : reg S ⊆ U;
  ro_C : reg (abs (fst s)) ⊆ U }.

Section history.
  Context (isW : cls -> bool) (O : onto) (dc : uid -> cls) (order : gset uid -> list uid).
  Context (Henv : renv isW O dc order).

  Local Lemma Hord X x : x ∈ order X -> x ∈ X.
  Proof. rewrite (re_order _ _ _ _ Henv). apply elem_of_elements. Qed.

  Lemma mem_step_reg (s : sess) o :
    sess_inv O s -> (forall u c attrs l, o = WCreate l u c attrs -> u <> 0%N) ->
    (forall u, o = WDelete u -> u ∈ reg s) ->
    reg (mem_step O s o) ⊆ reg s ∪ uses o.
  Proof.
    intros Hi H0 Hd. unfold mem_step.
    destruct o as [l u c attrs|a q bs|a uids rf oc|u a l|u|a uids rf oc|us|us| |us|k|d]; cbn [mem_op uses step];
      try (clear; set_solver).
    - destruct (create_spec s u c attrs) as (s' & -> & Hr & _); [by eapply H0|]. cbn [fst]. by rewrite Hr.
    - destruct (add O s a q bs) as [s' rv] eqn:E. apply add_spec in E as (Hr & _). cbn [fst]. rewrite Hr. clear; set_solver.
    - pose proof (remove_spec O s a uids rf oc Hi) as H. destruct (remove O s a uids rf oc) as [s' e].
      destruct H as [(_ & _ & _ & ->)|[(_ & _ & -> & _)|(_ & _ & Hr & _)]]; cbn [fst]; rewrite ?Hr; clear; set_solver.
    - destruct (delete_spec O s u) as (s' & -> & Hr & _); [apply Henv|done|by apply Hd| |cbn [fst]; rewrite Hr; clear; set_solver].
      intros ? ? ? _. apply Henv.
  Qed.

  (** One step. *)
  Lemma rstep_refines r U s S J o :
    rok isW O r U s S J -> rvalid isW r U s o ->
    exists S' J', rok isW O r (U ∪ uses o) (rstep isW O dc order s o) S' J' /\
      abs (fst (rstep isW O dc order s o)) = mem_step O (abs (fst s)) o /\
      (match o with WCommit _ => S' = abs (fst s) | _ => S' = S end).
  Proof.
    intros [Hi Hs [Hf1 Hf2] HJ HS HC] Hv. pose proof (ri_c _ _ _ _ _ Hi) as Hc.
    assert (forall x, x ∈ wreg (fst s) -> x ∈ reg (abs (fst s))) as Hsub.
    { intros x Hx. apply (elem_abs_reg _ r); [apply Hc|by left]. }
    (* enough for everything but commit *)
    assert (forall s', rinv isW s' r S J -> abs (fst s') = mem_step O (abs (fst s)) o ->
      (forall u, u ∈ badd (ub (fst s')) -> u ∈ badd (ub (fst s)) \/ u ∈ uses o) ->
      rok isW O r (U ∪ uses o) s' S J) as Hstep.
    { intros s' Hi' Ha Hb.
      assert (forall u, u ∈ uses o -> u ∉ U) as Hu.
      { intros u Hu. destruct o as [l v c attrs|a q bs|a uids rf oc|v a l|v|a uids rf oc|us|us| |us|k|d]; cbn [uses] in Hu; try (by apply not_elem_of_empty in Hu).
        apply elem_of_singleton in Hu as ->. apply Hv. }
      assert (r ∈ U) as HrU. { apply HC, Hsub. apply Hc. }
      assert (reg (mem_step O (abs (fst s)) o) ⊆ reg (abs (fst s)) ∪ uses o) as Hreg.
      { apply mem_step_reg; [done| |].
        - intros u c attrs l ->. apply Hv.
        - intros u ->. apply Hsub, Hv. }
      constructor.
      - done.
      - rewrite Ha. unfold mem_step. destruct (mem_op o) as [o'|] eqn:Eo; [|done].
        apply step_inv; [apply Henv|done|intros ? ? ? _; apply Henv|].
        destruct o; cbn [mem_op] in Eo; try discriminate; injection Eo as <-; unfold op_valid; cbn [rvalid] in Hv.
        all: apply Forall_forall; intros x Hx; simpl in Hx; try apply Hsub.
        + done.
        + destruct Hv as [? Hv]. destruct Hx as [->|Hx]; [done|]. apply Hv. by apply elem_of_list_In.
        + by destruct Hx as [->|[]].
        + by destruct Hx as [->|[]].
        + by destruct Hv; destruct Hx as [->|[]].
      - constructor.
        + intros H. apply Hb in H as [H|H]; [done|]. by apply Hu in H.
        + intros u x H Hin. apply Hb in H as [H|H]; [by eapply Hf2|]. apply Hu in H. by apply HJ in Hin.
      - intros x y H. apply HJ in H. apply elem_of_union. by left.
      - clear -HS. set_solver.
      - rewrite Ha. clear -HC Hreg. set_solver. }
    assert (forall X, rinv isW (fst (expire (fst s) X), snd s) r S J /\ abs (fst (expire (fst s) X)) = abs (fst s) /\
      badd (ub (fst (expire (fst s) X))) = badd (ub (fst s))) as Hexp.
    { intros X. destruct (expire_spec isW (fst s) r X Hc) as (E1 & E2 & E3 & E4 & E5). rewrite E4.
      split; [|done]. destruct Hi as [I1 I2 I3 I4]. constructor; cbn [fst snd]; [done|done|by rewrite E5|].
      intros u. rewrite E4. unfold wreg at 1. rewrite E3. apply I4. }
    destruct o as [l u c attrs|a q bs|a uids rf oc|u a l|u|a uids rf oc|us|us| |us|k|d]; cbn [rvalid] in Hv.
    - destruct Hv as (H1 & H2 & H3).
      destruct (r_create_spec isW s r S J u c attrs) as (s' & E & Hi' & Ha & _ & _ & Hb & _); [done|done| | |done|].
      { clear -H2 HC. set_solver. }
      { intros H. apply (wi_del _ _ _ Hc) in H as [_ [p Hp]]. rewrite (ri_db _ _ _ _ _ Hi) in Hp.
        destruct (ri_s _ _ _ _ _ Hi) as (p0 & _ & Hp0 & _ & _ & <-). apply H2, HS.
        apply (elem_abs p0 r) in Hp; [|apply Hp0]. apply (elem_abs_reg p0 r); [apply Hp0|].
        destruct Hp as [[? _]|(_ & ? & ?)]; [by left|right; eauto]. }
      exists S, J. cbn [rstep]. rewrite E. cbn [fst]. split; [|done]. apply Hstep; [done|done|].
      intros x. rewrite Hb, elem_of_union. done.
    - destruct Hv as [H1 H2].
      destruct (r_add_spec isW O dc order Hord a q bs s r S J) as (s' & E & Hi' & Ha & _ & _ & _ & Hb & _); [done..|].
      exists S, J. cbn [rstep]. rewrite E. cbn [fst]. split; [|done]. apply Hstep; [done|done|].
      intros x. rewrite Hb. by left.
    - destruct (r_remove_spec isW O dc order Hord s r S J a uids rf oc) as (s' & E & (Hi' & Ha & _ & _ & _ & Hb & _) & _); [done..|].
      exists S, J. cbn [rstep]. rewrite E. cbn [fst]. split; [|done]. apply Hstep; [done|done|].
      intros x. rewrite Hb. by left.
    - destruct (r_set_attr_spec isW dc order Hord s r S J u a l) as (s' & E & _ & (Hi' & Ha & _ & _ & _ & Hb & _)); [done..|].
      exists S, J. cbn [rstep]. rewrite E. cbn [fst]. split; [|done]. apply Hstep; [done|done|].
      intros x. rewrite Hb. by left.
    - destruct Hv as [H1 H2].
      destruct (r_delete_spec isW O dc order Hord s r S J u) as (s' & E & Hi' & _ & Ha & _ & _ & _ & Hb); [done..|apply Henv|done| |].
      { intros ? ? ? _. apply Henv. }
      exists S, J. cbn [rstep]. rewrite E. cbn [fst]. split; [|done]. apply Hstep; [done|done|].
      intros x Hx. left. by apply Hb.
    - destruct (r_get_spec isW O dc order Hord s r S J a uids rf oc) as (s' & res & E & _ & Hi' & [Hk _] & _); [done..|].
      exists S, J. cbn [rstep]. rewrite E. cbn [fst]. destruct Hk as [Ha Hb _ _ _]. split; [|done]. apply Hstep; [done|done|].
      intros x. rewrite Hb. by left.
    - destruct (r_load_spec isW dc order Hord s r S J us) as (s' & E & Hi' & [Hk _] & _); [done..|].
      exists S, J. cbn [rstep]. rewrite E. cbn [fst]. destruct Hk as [Ha Hb _ _ _]. split; [|done]. apply Hstep; [done|done|].
      intros x. rewrite Hb. by left.
    - exists S, J. cbn [rstep]. destruct (Hexp (list_to_set us)) as (E1 & E2 & E3). split; [|done].
      apply Hstep; [done|done|]. cbn [fst]. rewrite E3. by left.
    - exists S, J. cbn [rstep]. unfold expire_all. destruct (Hexp (wreg (fst s))) as (E1 & E2 & E3). split; [|done].
      apply Hstep; [done|done|]. cbn [fst]. rewrite E3. by left.
    - destruct (r_refresh_spec isW dc order Hord s r S J us) as (s' & E & Hi' & [Hk _] & _); [done..|].
      exists S, J. cbn [rstep]. rewrite E. cbn [fst]. destruct Hk as [Ha Hb _ _ _]. split; [|done]. apply Hstep; [done|done|].
      intros x. rewrite Hb. by left.
    - destruct k as [k|]; [done|].
      destruct (r_commit_spec isW dc order (re_order _ _ _ _ Henv) s r S J)
        as (s' & J' & E & Hi' & Ha & _ & U1 & _ & _ & _ & HJ'); [done|by constructor|intros u _; apply Henv| |].
      { intros H x Hx. apply (elem_abs _ r); [apply Hc|]. left. split; [apply Hc|]. by apply Hv. }
      exists (abs (fst s)), J'. cbn [rstep]. rewrite E. cbn [fst]. split; [|done].
      constructor.
      + done.
      + by rewrite Ha.
      + constructor; rewrite U1; cbn [badd no_bufs]; [apply not_elem_of_empty|]. intros u x H. by apply not_elem_of_empty in H.
      + intros x y H. apply elem_of_union. left. apply HJ' in H as [[y' H]|[H|H]]; [by apply HJ in H|by apply HS|by apply HC].
      + clear -HC. set_solver.
      + rewrite Ha. clear -HC. set_solver.
    - done.
  Qed.

  Lemma rrun_refines r os : forall U s S J,
    rok isW O r U s S J -> rvalid_run isW O dc order r U s os ->
    (exists U' S' J', rok isW O r U' (rrun isW O dc order s os) S' J') /\
    abs (fst (rrun isW O dc order s os)) = foldl (mem_step O) (abs (fst s)) os.
  Proof.
    induction os as [|o os IH]; intros U s S J Hok Hv; [split; [eauto|done]|].
    destruct Hv as [Hv Hvs]. destruct (rstep_refines r U s S J o Hok Hv) as (S' & J' & Hok' & Ha & _).
    destruct (IH _ _ _ _ Hok' Hvs) as [H1 H2]. split; [done|]. unfold rrun in *. simpl. by rewrite H2, Ha.
  Qed.

  Lemma rconnects_ok d r c attrs s :
    rconnects isW O dc order d r c attrs s ->
    rok isW O r ({[r]} ∪ subjects (view r d)) s (abs (fst s)) ∅ /\
    abs (snd s) = abs (fst s) /\ gr (abs (fst s)) = view r d ∪ new_graph r c attrs /\
    reg (abs (fst s)) = {[r]} ∪ subjects (view r d) /\ db (snd s) = d /\ ub (fst s) = no_bufs /\
    ub (snd s) = Bufs {[r]} ∅ ∅.
  Proof.
    intros [Hg Hb Hf [Hr Hc] (first & Ho & E)].
    destruct (r_connect_spec isW dc order (re_order _ _ _ _ Henv) d r c attrs Hr Hf Hg Hc first Ho)
      as (s' & E' & Hi & Hss & Hgr & Hreg & U1 & U2 & D & _ & _).
    rewrite E in E'. injection E' as <-. split; [|done].
    assert (forall a q b, (a, TLink q b) ∈ gr (abs (fst s)) <-> (a, TLink q b) ∈ view r d) as Hlink.
    { intros a q b. rewrite Hgr, elem_of_union. split; [|tauto]. intros [?|H']; [done|].
      apply elem_new_graph in H'. naive_solver. }
    pose proof (ri_c _ _ _ _ _ Hi) as Hw.
    constructor.
    - done.
    - split.
      + intros a q b. unfold connected. rewrite !Hlink, !elem_view_inv by done.
        assert (po_nz (TLink q b) <-> b <> 0%N) as ->.
        { unfold po_nz. split; [intros H' ->; by apply (H' q)|intros H' q' ?; simplify_eq]. }
        assert (po_nz (TLink (o_inv O q) a) <-> a <> 0%N) as ->.
        { unfold po_nz. split; [intros H' ->; by apply (H' (o_inv O q))|intros H' q' ?; simplify_eq]. }
        simpl. rewrite <- (Hb (sub_root r a)). tauto.
      + intros u p Hp. apply (elem_abs _ r) in Hp; [|apply Hw].
        apply (elem_abs_reg _ r); [apply Hw|]. naive_solver.
    - constructor; rewrite U1; cbn [badd no_bufs]; [apply not_elem_of_empty|]. intros u x H. by apply not_elem_of_empty in H.
    - intros x y H. by apply not_elem_of_empty in H.
    - by rewrite Hreg.
    - by rewrite Hreg.
  Qed.

  Lemma rserved_ok d r s :
    rserved isW O dc order d r s -> exists U S J, rok isW O r U s S J /\ abs (snd s) = S.
  Proof.
    intros (c & attrs & s0 & os & Hc & Hv & ->). destruct (rconnects_ok _ _ _ _ _ Hc) as [Hok _].
    destruct (rrun_refines r os _ _ _ _ Hok Hv) as [(U & S & J & H) _]. exists U, S, J. split; [done|].
    destruct (ri_s _ _ _ _ _ (ro_inv _ _ _ _ _ _ _ H)) as (p0 & Ep & Hp & Hd & _ & <-). rewrite Ep.
    by apply (abs_addj J p0 r); [apply Hp|].
  Qed.
End history.

Lemma server_abs isW s r S J : rinv isW s r S J -> abs (snd s) = S.
Proof.
  intros Hi. destruct (ri_s _ _ _ _ _ Hi) as (p0 & Ep & Hp & Hd & _ & <-). rewrite Ep.
  by apply (abs_addj J p0 r); [apply Hp|].
Qed.
Lemma srv_reg isW J p r (S : sess) u : srv isW J p r S -> u ∈ reg S <-> exists x, (u, x) ∈ gr S.
Proof.
  intros (p0 & _ & Hp & _ & _ & <-). split.
  - intros H. destruct (wi_typed _ _ _ Hp u H) as [c ?]. eauto.
  - intros [x H]. apply (elem_abs p0 r) in H; [|apply Hp]. apply (elem_abs_reg p0 r); [apply Hp|].
    destruct H as [[? _]|(_ & ? & ?)]; [by left|right; eauto].
Qed.

(** * C63: a remote session behaves like a local one *)

(** After any history, the client holds what the same history gives in a session
    without server and backend that started with the same content. *)
Theorem C63_same_as_local isW O dc order d r c attrs s os :
  renv isW O dc order -> rconnects isW O dc order d r c attrs s ->
  rvalid_run isW O dc order r ({[r]} ∪ subjects (view r d)) s os ->
  abs (fst (rrun isW O dc order s os)) = foldl (mem_step O) (abs (fst s)) os.
Proof.
  intros He Hc Hv. destruct (rconnects_ok _ _ _ _ He _ _ _ _ _ Hc) as [Hok _].
  by apply (rrun_refines _ _ _ _ He r os _ _ _ _ Hok Hv).
Qed.

(** Connecting gives the content of the backend and the new root; the server's
    session holds the same and has only the root to store. *)
Theorem C63_connect isW O dc order d r c attrs s :
  renv isW O dc order -> rconnects isW O dc order d r c attrs s ->
  gr (abs (fst s)) = view r d ∪ new_graph r c attrs /\
  reg (abs (fst s)) = {[r]} ∪ subjects (view r d) /\ abs (snd s) = abs (fst s) /\
  db (snd s) = d /\ ub (fst s) = no_bufs /\ ub (snd s) = Bufs {[r]} ∅ ∅.
Proof.
  intros He Hc. destruct (rconnects_ok _ _ _ _ He _ _ _ _ _ Hc) as (_ & ? & ? & ? & ? & ? & ?). done.
Qed.

(** The same history in a session used directly: if the backend has no root yet, or
    if the root it has already is and has what the new root is and has, both hold the
    same content after the same history. *)
Theorem C63_same_as_direct isW O dc order d r c attrs s w first os :
  renv isW O dc order -> rconnects isW O dc order d r c attrs s ->
  (forall u, u ∈ first <-> u ∈ first_level r d) ->
  w_create isW first (w_empty d) r c attrs = (w, None) ->
  ((forall p, (0%N, p) ∉ d) \/ new_graph r c attrs ⊆ view r d) ->
  rvalid_run isW O dc order r ({[r]} ∪ subjects (view r d)) s os ->
  wvalid_run isW O r w os ->
  abs (fst (rrun isW O dc order s os)) = abs (wrun isW O w os).
Proof.
  intros He Hc Hfirst E Hroot Hv Hw. rewrite (C63_same_as_local isW O dc order d r c attrs s os He Hc Hv).
  assert (connects isW O d r w) as Hcw.
  { destruct Hc as [H1 H2 H3 [H4 H5] _]. constructor; [done..|]. exists first, c, attrs. done. }
  rewrite (C30_lazy_loading_invisible isW O d r w os (re_inv _ _ _ _ He) (re_all _ _ _ _ He) Hcw Hw).
  f_equal. destruct (C63_connect isW O dc order d r c attrs s He Hc) as (Hg & Hr & _).
  destruct Hc as [H1 H2 H3 [H4 H5] Hs].
  destruct (connect_spec isW d r c attrs H4 H3 H1 H5 first Hfirst) as (w' & E' & Hwi & Gw & Rw & _).
  rewrite E in E'. injection E' as <-.
  assert (renv isW O dc order) as He' by done.
  destruct (rconnects_ok isW O dc order He d r c attrs s) as [Hok _]; [constructor; done|].
  pose proof (wi_root _ _ _ (ri_c _ _ _ _ _ (ro_inv _ _ _ _ _ _ _ Hok))) as Rs.
  pose proof (wi_root _ _ _ Hwi) as Rw'.
  apply sess_eq.
  - intros u. by rewrite Hr, Rw.
  - intros t. rewrite Hg, Gw. unfold connected_graph. case_decide as Hd; [done|].
    destruct Hroot as [Hno|Hsub]; [|clear -Hsub; set_solver].
    destruct Hd. apply set_eq. intros [x p]. split; [|intros H; by apply not_elem_of_empty in H].
    intros H. apply elem_triples_of in H as [H Hx]. simpl in Hx. subst x.
    apply elem_view_inv in H as (_ & _ & H); [|done|done]. unfold sub_root in H. rewrite decide_True in H by done.
    by apply Hno in H.
  - unfold abs. by rewrite Rs, Rw'.
Qed.

(** get() answers like the in-memory session with the client's content. *)
Theorem C63_get isW O dc order d r s a uids rf oc :
  renv isW O dc order -> rserved isW O dc order d r s -> a ∈ wreg (fst s) ->
  exists s' res, r_get isW O dc order s a uids rf oc = (s', res) /\
    same_answer uids res (get O (abs (fst s)) a uids rf oc) /\ abs (fst s') = abs (fst s).
Proof.
  intros He Hs Ha. destruct (rserved_ok _ _ _ _ He _ _ _ Hs) as (U & S & J & [Hi Hinv _ _ _ _] & _).
  destruct (r_get_spec isW O dc order (Hord _ _ _ _ He) s r S J a uids rf oc Hi Ha Hinv)
    as (s' & res & E & Hsame & _ & [Hk _] & _).
  exists s', res. split; [done|]. split; [done|apply Hk].
Qed.

(** load(u1,...,un) gives, position by position, the object if the client or the
    server knows it, and None otherwise. *)
Theorem C63_load isW O dc order d r s us :
  renv isW O dc order -> rserved isW O dc order d r s ->
  (forall u, u ∈ us -> u <> 0%N /\ u ∉ bdel (ub (fst s))) ->
  exists s' l, r_load isW dc order s us = (s', Ok l) /\ length l = length us /\
    (forall i u, us !! i = Some u ->
       let known := u ∈ wreg (fst s) \/ u ∈ reg (abs (snd s)) in
       (known /\ l !! i = Some (Some u) /\ u ∈ wreg (fst s')) \/ (~ known /\ l !! i = Some None)) /\
    abs (fst s') = abs (fst s) /\ ub (fst s') = ub (fst s) /\ abs (snd s') = abs (snd s).
Proof.
  intros He Hs Hus. destruct (rserved_ok _ _ _ _ He _ _ _ Hs) as (U & S & J & [Hi Hinv _ _ _ _] & HS).
  destruct (r_load_spec isW dc order (Hord _ _ _ _ He) s r S J us Hi Hus) as (s' & E & Hi' & [Hk _] & Hin & _).
  exists s', (load (abs (fst s)) us). split; [done|]. split; [apply map_length|]. split.
  2: { split; [apply Hk|]. split; [apply Hk|]. by rewrite HS, (server_abs _ _ _ _ _ Hi'). }
  intros i u Hu. cbv zeta. assert (u ∈ us) as Huu by by eapply elem_of_list_lookup_2.
  destruct (Hus u Huu) as [_ Hd].
  assert (u ∈ reg (abs (fst s)) <-> u ∈ wreg (fst s) \/ u ∈ reg (abs (snd s))) as Hkn.
  { rewrite (elem_abs_reg _ r) by apply Hi. rewrite (ri_db _ _ _ _ _ Hi), HS.
    rewrite (srv_reg _ _ _ _ _ u (ri_s _ _ _ _ _ Hi)). tauto. }
  unfold load. rewrite list_lookup_fmap, Hu. simpl.
  destruct (decide (u ∈ reg (abs (fst s)))) as [H|H]; [left|right].
  - split; [by apply Hkn|]. split; [done|auto].
  - split; [by rewrite <- Hkn|done].
Qed.

(** add(), remove(), delete and assigning an attribute raise exactly when they do in
    the in-memory session, and do the same. *)
Theorem C63_writes isW O dc order d r s :
  renv isW O dc order -> rserved isW O dc order d r s ->
  (forall a q bs, a ∈ wreg (fst s) -> (forall b, b ∈ bs -> b ∈ wreg (fst s)) ->
     abs (fst (fst (r_add isW O dc order s a q bs))) = fst (add O (abs (fst s)) a q bs) /\
     snd (r_add isW O dc order s a q bs) = snd (add O (abs (fst s)) a q bs)) /\
  (forall a uids rf oc, a ∈ wreg (fst s) ->
     abs (fst (fst (r_remove isW O dc order s a uids rf oc))) = fst (remove O (abs (fst s)) a uids rf oc) /\
     snd (r_remove isW O dc order s a uids rf oc) = snd (remove O (abs (fst s)) a uids rf oc)) /\
  (forall u a l, u ∈ wreg (fst s) ->
     abs (fst (fst (r_set_attr isW dc order s u a l))) = set_attr (abs (fst s)) u a l /\
     snd (r_set_attr isW dc order s u a l) = None) /\
  (forall u, u ∈ wreg (fst s) -> u <> r ->
     abs (fst (fst (r_delete isW O dc order s u))) = fst (delete_cuds_object O (abs (fst s)) u) /\
     snd (r_delete isW O dc order s u) = snd (delete_cuds_object O (abs (fst s)) u)).
Proof.
  intros He Hs. destruct (rserved_ok _ _ _ _ He _ _ _ Hs) as (U & S & J & [Hi Hinv _ _ _ _] & HS).
  split; [|split; [|split]].
  - intros a q bs Ha Hb.
    destruct (r_add_spec isW O dc order (Hord _ _ _ _ He) a q bs s r S J Hi Ha Hb) as (s' & -> & _ & H & _). done.
  - intros a uids rf oc Ha.
    destruct (r_remove_spec isW O dc order (Hord _ _ _ _ He) s r S J a uids rf oc Hi Ha Hinv) as (s' & -> & (_ & H & _) & _). done.
  - intros u a l Hu.
    destruct (r_set_attr_spec isW dc order (Hord _ _ _ _ He) s r S J u a l Hi Hu) as (s' & -> & _ & (_ & H & _)). done.
  - intros u Hu Hur.
    destruct (r_delete_spec isW O dc order (Hord _ _ _ _ He) s r S J u Hi Hu Hur (re_inv _ _ _ _ He) Hinv)
      as (s' & -> & _ & H1 & H2 & _); [|done].
    intros ? ? ? _. apply He.
Qed.

(** Until commit() nothing of what the client does is seen in the server's session. *)
Theorem C63_isolated isW O dc order d r c attrs s os o :
  renv isW O dc order -> rconnects isW O dc order d r c attrs s ->
  rvalid_run isW O dc order r ({[r]} ∪ subjects (view r d)) s (os ++ [o]) ->
  (forall f, o <> WCommit f) ->
  abs (snd (rrun isW O dc order s (os ++ [o]))) = abs (snd (rrun isW O dc order s os)).
Proof.
  intros He Hc Hv Ho. destruct (rconnects_ok _ _ _ _ He _ _ _ _ _ Hc) as [Hok _]. clear Hc.
  generalize dependent (abs (fst s)). generalize (∅ : graph). revert s Hv.
  generalize ({[r]} ∪ subjects (view r d)) as U.
  induction os as [|o' os IH]; intros U s Hv J S Hok; simpl in Hv; destruct Hv as [Hv Hvs].
  - destruct (rstep_refines _ _ _ _ He r U s S J o Hok Hv) as (S' & J' & Hok' & _ & HS).
    simpl. rewrite (server_abs _ _ _ _ _ (ro_inv _ _ _ _ _ _ _ Hok)).
    rewrite (server_abs _ _ _ _ _ (ro_inv _ _ _ _ _ _ _ Hok')). destruct o; try done. by destruct (Ho fail).
  - destruct (rstep_refines _ _ _ _ He r U s S J o' Hok Hv) as (S' & J' & Hok' & _ & HS).
    apply (IH _ _ Hvs _ _ Hok').
Qed.

(** commit() stores: afterwards the backend and the server's session hold exactly
    the client's content, the client's content has not changed and nothing is left to
    be committed. *)
Theorem C63_commit isW O dc order d r s :
  renv isW O dc order -> rserved isW O dc order d r s ->
  (r ∈ badd (ub (snd s)) -> forall p, (r, p) ∈ view r (db (snd s)) -> (r, p) ∈ wgr (fst s)) ->
  exists s', r_commit isW dc order s = (s', None) /\
    view r (db (snd s')) = gr (abs (fst s)) /\ abs (snd s') = abs (fst s) /\
    abs (fst s') = abs (fst s) /\ ub (fst s') = no_bufs /\ ub (snd s') = no_bufs.
Proof.
  intros He Hs Hroot. destruct (rserved_ok _ _ _ _ He _ _ _ Hs) as (U & S & J & [Hi Hinv Hf _ _ _] & HS).
  destruct (r_commit_spec isW dc order (re_order _ _ _ _ He) s r S J)
    as (s' & J' & E & _ & Ha & _ & U1 & U2 & HA & HV & _); [done|done|intros u _; apply He| |].
  { intros H x Hx. apply (elem_abs _ r); [apply Hi|]. left. split; [apply Hi|]. by apply Hroot. }
  exists s'. done.
Qed.

(** What the model notes in the client's state as the server's content is the
    server's content, and the client's content differs from it in buffered objects
    only. *)
Theorem C63_noted isW O dc order d r s :
  renv isW O dc order -> rserved isW O dc order d r s ->
  view r (db (fst s)) = gr (abs (snd s)) /\
  (forall u p, u ∉ badd (ub (fst s)) -> u ∉ bupd (ub (fst s)) -> u ∉ bdel (ub (fst s)) ->
     (u, p) ∈ gr (abs (fst s)) <-> (u, p) ∈ gr (abs (snd s))).
Proof.
  intros He Hs. destruct (rserved_ok _ _ _ _ He _ _ _ Hs) as (U & S & J & [Hi Hinv Hf _ _ _] & HS).
  rewrite HS. split; [apply Hi|]. intros u p H1 H2 H3. pose proof (ri_c _ _ _ _ _ Hi) as Hw.
  rewrite (elem_abs _ r) by apply Hw. rewrite <- (ri_db _ _ _ _ _ Hi).
  destruct (decide (u ∈ wreg (fst s))) as [Hu|Hu]; [|tauto].
  rewrite (wi_same _ _ _ Hw u Hu); [tauto|]. unfold buids. rewrite !not_elem_of_union. done.
Qed.

(** ** A concrete client and server: the backend [exDb] of C30. *)
Definition exRc (attrs : list (attr * lit)) : rsys * option exn :=
  r_connect exW exDc elements [21%N; 10%N] exDb 10%N 9%N attrs.
Definition exR0 : rsys := fst (exRc []).
Definition exRops : list wop :=
  [WGet 10%N [] None None;
   WCreate [] 31%N 3%N [(30%N, (7%N, 7%N))]; WAdd 10%N 1%N [31%N]; WAdd 10%N 1%N [31%N]; WCommit None;
   WSetAttr 21%N 30%N (2%N, 2%N); WExpireAll; WGet 21%N [] (Some 5%N) None;
   WDelete 22%N; WCommit None; WLoad [21%N; 99%N; 10%N]; WRefresh [10%N];
   WRemove 10%N [31%N] None None; WCreate [] 41%N 4%N []; WAdd 21%N 5%N [41%N]]%N.
Definition exR1 : rsys := rrun exW exO exDc elements exR0 exRops.

Example exR_env : renv exW exO exDc elements.
Proof.
  constructor.
  - done.
  - intros u. reflexivity.
  - apply exO_involutive.
  - intros q. apply exO_covers.
Qed.

Example exR_connects attrs : rconnects exW exO exDc elements exDb 10%N 9%N attrs (fst (exRc attrs)).
Proof.
  destruct exW0_connects as [H1 H2 H3 _].
  assert (first_level 10%N exDb = {[21%N; 10%N]}) as Hf. { refine (bool_decide_unpack _ _). vm_compute. exact Logic.I. }
  assert (forall u, u ∈ [21%N; 10%N] <-> u ∈ first_level 10%N exDb) as Hf'.
  { intros u. rewrite Hf, !elem_of_cons, elem_of_nil, elem_of_union, !elem_of_singleton. tauto. }
  constructor; [done..|by split|]. exists [21%N; 10%N]. split; [done|].
  destruct (r_connect_spec exW exDc elements (re_order _ _ _ _ exR_env) exDb 10%N 9%N attrs) with (first := [21%N; 10%N])
    as (s & E & _); [done|done|done|done|done|].
  unfold exRc. rewrite E. done.
Qed.

(** A boolean version of [rvalid], only used to evaluate examples. *)
Definition rvalidb (isW : cls -> bool) (r : uid) (U : gset uid) (s : rsys) (o : wop) : bool :=
  match o with
  | WCreate _ u c _ => bool_decide (u <> 0%N) && bool_decide (u ∉ U) && negb (isW c)
  | WAdd a _ bs => bool_decide (a ∈ wreg (fst s)) && forallb (fun b => bool_decide (b ∈ wreg (fst s))) bs
  | WRemove a _ _ _ => bool_decide (a ∈ wreg (fst s))
  | WSetAttr u _ _ => bool_decide (u ∈ wreg (fst s))
  | WDelete u => bool_decide (u ∈ wreg (fst s)) && bool_decide (u <> r)
  | WGet a _ _ _ => bool_decide (a ∈ wreg (fst s))
  | WLoad us => forallb (fun u => bool_decide (u <> 0%N) && bool_decide (u ∉ bdel (ub (fst s)))) us
  | WExpire _ | WExpireAll | WRefresh _ => true
  | WCommit None => forallb (fun t : triple => bool_decide (fst t <> r) || bool_decide (t ∈ wgr (fst s)))
                      (elements (view r (db (snd s))))
  | _ => false
  end.
Fixpoint rvalid_runb isW O dc order (r : uid) (U : gset uid) (s : rsys) (os : list wop) : bool :=
  match os with
  | [] => true
  | o :: os' => rvalidb isW r U s o && rvalid_runb isW O dc order r (U ∪ uses o) (rstep isW O dc order s o) os'
  end.
Lemma rvalidb_ok isW r U s o : rvalidb isW r U s o = true -> rvalid isW r U s o.
Proof.
  destruct o as [order u c attrs|a q bs|a uids rf oc|u a l|u|a uids rf oc|us|us| |us|[k|]|d];
    cbn [rvalidb rvalid]; rewrite ?andb_true_iff, ?negb_true_iff, ?bool_decide_eq_true; try done.
  - tauto.
  - intros [H1 H2]. split; [done|]. intros b Hb. apply elem_of_list_In in Hb.
    rewrite forallb_forall in H2. apply H2 in Hb. by apply bool_decide_eq_true in Hb.
  - intros Hf b Hb. apply elem_of_list_In in Hb. rewrite forallb_forall in Hf.
    apply Hf in Hb. apply andb_true_iff in Hb as [H1 H2].
    apply bool_decide_eq_true in H1, H2. done.
  - intros Hf _ p Hp. apply elem_of_elements, elem_of_list_In in Hp. rewrite forallb_forall in Hf.
    apply Hf in Hp. apply orb_true_iff in Hp as [Hp|Hp]; apply bool_decide_eq_true in Hp; done.
Qed.
Lemma rvalid_runb_ok isW O dc order r os : forall U s,
  rvalid_runb isW O dc order r U s os = true -> rvalid_run isW O dc order r U s os.
Proof.
  induction os as [|o os IH]; intros U s; cbn [rvalid_runb rvalid_run]; [done|].
  rewrite andb_true_iff. intros [H1 H2]. split; [by apply rvalidb_ok|by apply IH].
Qed.

Example exR1_valid : rvalid_run exW exO exDc elements 10%N ({[10%N]} ∪ subjects (view 10%N exDb)) exR0 exRops.
Proof. apply rvalid_runb_ok. vm_compute. reflexivity. Qed.
Example exR1_served : rserved exW exO exDc elements exDb 10%N exR1.
Proof. exists 9%N, [], exR0, exRops. split; [apply exR_connects|]. split; [apply exR1_valid|done]. Qed.
(** Two commits happened; 22 is deleted in the backend, 31 is stored with its link;
    the client has since removed that link and created 41. *)
Example exR1_state :
  wreg (fst exR1) = {[10%N; 21%N; 31%N; 41%N]} /\ badd (ub (fst exR1)) = {[41%N]} /\
  bupd (ub (fst exR1)) = {[10%N; 21%N; 31%N]} /\ bdel (ub (fst exR1)) = ∅ /\
  ub (snd exR1) = no_bufs /\
  attr_values (db (snd exR1)) 21%N 30%N = [(2%N, 2%N)] /\ (22%N, TType 4%N) ∉ db (snd exR1) /\
  (31%N, TLink 2%N 0%N) ∈ db (snd exR1) /\ (31%N, TLink 2%N 10%N) ∉ gr (abs (fst exR1)) /\
  (31%N, TLink 2%N 10%N) ∈ gr (abs (snd exR1)).
Proof. split_and!; try dec. vm_compute. reflexivity. Qed.

(** Connecting to a backend whose root an earlier session stored: a session used
    directly shows the stored root and drops what the new root object was created
    with; through a server both remain. *)
Theorem C63_reconnect_refuted :
  exists isW O dc order d r c attrs first s w,
    renv isW O dc order /\ rconnects isW O dc order d r c attrs s /\
    (forall u, u ∈ first <-> u ∈ first_level r d) /\
    w_create isW first (w_empty d) r c attrs = (w, None) /\
    (exists a l, (r, TAttr a l) ∈ gr (abs (fst s)) /\ (r, TAttr a l) ∉ gr (abs w)).
Proof.
  exists exW, exO, exDc, elements, exDb, 10%N, 9%N, [(30%N, (7%N, 7%N))], [21%N; 10%N],
    (fst (exRc [(30%N, (7%N, 7%N))])),
    (fst (w_create exW [21%N; 10%N] (w_empty exDb) 10%N 9%N [(30%N, (7%N, 7%N))])).
  split; [apply exR_env|]. split; [apply exR_connects|]. split.
  { destruct (rc_s _ _ _ _ _ _ _ _ _ (exR_connects [])) as (first & Hf & _).
    assert (first_level 10%N exDb = {[21%N; 10%N]}) as ->. { refine (bool_decide_unpack _ _). vm_compute. exact Logic.I. }
    intros u. rewrite !elem_of_cons, elem_of_nil, elem_of_union, !elem_of_singleton. tauto. }
  split; [apply pair_eta; vm_compute; reflexivity|].
  exists 30%N, (7%N, 7%N). split; dec.
Qed.

(** A uid that has been used before: an object is deleted and another one with the
    same uid created; after commit() the server's session gives it both classes. *)
Definition exRbad : list wop :=
  [WGet 10%N [] None None; WGet 21%N [] None None; WDelete 22%N; WCommit None; WCreate [] 22%N 3%N []; WCommit None]%N.
Theorem C63_reused_uid_refuted :
  exists isW O dc order d r s os u c, renv isW O dc order /\
    (exists attrs c0, rconnects isW O dc order d r c0 attrs s) /\
    (u, TType c) ∈ gr (abs (snd (rrun isW O dc order s os))) /\
    (u, TType c) ∉ gr (abs (fst (rrun isW O dc order s os))).
Proof.
  exists exW, exO, exDc, elements, exDb, 10%N, exR0, exRbad, 22%N, 4%N.
  split; [apply exR_env|]. split; [exists [], 9%N; apply exR_connects|]. split; dec.
Qed.

Print Assumptions C63_same_as_local.
Print Assumptions C63_connect.
Print Assumptions C63_same_as_direct.
Print Assumptions C63_get.
Print Assumptions C63_load.
Print Assumptions C63_writes.
Print Assumptions C63_isolated.
Print Assumptions C63_commit.
Print Assumptions C63_noted.
Print Assumptions C63_reconnect_refuted.
Print Assumptions C63_reused_uid_refuted.
