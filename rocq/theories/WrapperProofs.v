(** Lemmas about the wrapper-session model (Wrapper.v). *)
From stdpp Require Import base sets list gmap countable.
From Verif Require Import Prelude Cuds CudsProofs Wrapper.

(** ** Elementary facts *)
Lemma elem_triples_of g u t : t ∈ triples_of g u <-> t ∈ g /\ fst t = u.
Proof. unfold triples_of. rewrite elem_of_filter. tauto. Qed.

Lemma elem_links g u r v : (r, v) ∈ links g u <-> (u, TLink r v) ∈ g.
Proof.
  unfold links. rewrite elem_of_list_to_set, elem_of_list_omap. split.
  - intros ([s p] & Hin & Hf). apply elem_of_elements in Hin.
    destruct p; simplify_option_eq. done.
  - intros Hv. exists (u, TLink r v). split; [by apply elem_of_elements|].
    by rewrite decide_True.
Qed.

Lemma elem_link_targets g u v :
  v ∈ (set_map snd (links g u) : gset uid) <-> exists r, (u, TLink r v) ∈ g.
Proof.
  rewrite elem_of_map. split.
  - intros ([r v'] & -> & Hin). apply elem_links in Hin. eauto.
  - intros [r Hr]. exists (r, v). split; [done|by apply elem_links].
Qed.

Lemma elem_neighbor_types d u x p :
  (x, p) ∈ neighbor_types d u <->
  (x, p) ∈ d /\ (exists c, p = TType c) /\ exists r, (u, TLink r x) ∈ d.
Proof.
  unfold neighbor_types. rewrite elem_of_filter, elem_link_targets.
  unfold is_type. simpl. destruct p; naive_solver.
Qed.

Lemma elem_map_graph f g t :
  t ∈ map_graph f g <-> exists t', t' ∈ g /\ t = map_triple f t'.
Proof. unfold map_graph. rewrite elem_of_map. naive_solver. Qed.

Lemma map_graph_ne f g : map_graph f g <> ∅ <-> g <> ∅.
Proof.
  split.
  - intros H ->. apply H. apply set_eq. intros t. rewrite elem_map_graph.
    split; [intros (t' & Ht & _)|]; set_solver.
  - intros H. apply set_choose_L in H as [t Ht]. intros E.
    assert (map_triple f t ∈ map_graph f g) by (apply elem_map_graph; eauto). set_solver.
Qed.

(** ** Contexts: which parts of the state a function can change *)

(** In the engine context the user's buffers, the context, the backend and the
    root stay as they are. *)
Definition kept (w w' : wsess) : Prop :=
  ub w' = ub w /\ cur w' = cur w /\ db w' = db w.

Lemma kept_refl w : kept w w. Proof. split; [|split]; done. Qed.
Local Hint Resolve kept_refl : core.
Ltac kd := first [done | (split; [|split]; done)].
Lemma kept_trans w1 w2 w3 : kept w1 w2 -> kept w2 w3 -> kept w1 w3.
Proof. unfold kept. intuition congruence. Qed.

Lemma set_cur_buf_kept w b : cur w = ENGINE -> kept w (set_cur_buf w b).
Proof. intros Hc. unfold set_cur_buf. rewrite Hc. split; [|split]; simpl; congruence. Qed.
Lemma set_core_kept w s : kept w (set_core w s). Proof. kd. Qed.
Lemma set_expd_kept w e : kept w (set_expd w e). Proof. kd. Qed.
Lemma kept_cur w w' : kept w w' -> cur w = ENGINE -> cur w' = ENGINE.
Proof. unfold kept. intuition congruence. Qed.

Lemma notify_update_kept w u : cur w = ENGINE -> kept w (fst (notify_update w u)).
Proof.
  intros Hc. unfold notify_update. repeat case_decide; simpl; try kd.
  by apply set_cur_buf_kept.
Qed.

Lemma notify_delete_kept w u : cur w = ENGINE -> kept w (notify_delete w u).
Proof.
  intros Hc. unfold notify_delete. repeat case_decide; by apply set_cur_buf_kept.
Qed.

Lemma w_delete_triples_kept w u : cur w = ENGINE -> kept w (fst (w_delete_triples w u)).
Proof.
  intros Hc. unfold w_delete_triples. destruct (delete_triples (core w) u) as [s' [e|]]; simpl; [kd|].
  by apply (notify_delete_kept (set_core w s') u).
Qed.

Lemma w_store_kept isW w u ts : cur w = ENGINE -> kept w (fst (w_store isW w u ts)).
Proof.
  intros Hc. unfold w_store. destruct (match classes ts u with [] => _ | _ => _ end); [kd|].
  simpl. eapply kept_trans; [|apply set_core_kept]. by apply set_cur_buf_kept.
Qed.

Lemma load_iri_kept isW w u : cur w = ENGINE -> kept w (fst (load_iri isW w u)).
Proof.
  intros Hc. unfold load_iri. destruct (wroot w) as [r|]; [|kd].
  case_decide; [kd|]. set (w1 := set_expd w _).
  set (w2 := if decide _ then _ else _).
  assert (kept w w2) as H2.
  { subst w2. case_decide; [kd|].
    eapply kept_trans; [|by apply w_store_kept]. kd. }
  set (w3 := set_wgr w2 _). assert (kept w w3) as H3 by exact H2.
  destruct (store_checks isW (wroot w3) (wgr w3) _); [exact H3|].
  pose proof (notify_update_kept w3 (sub_zero r (sub_root r u)) (kept_cur _ _ H3 Hc)) as H4.
  destruct (notify_update w3 _) as [w4 [e|]]; simpl in *; eapply kept_trans; eauto.
Qed.

Lemma expire_kept w us : kept w (fst (expire w us)).
Proof. kd. Qed.

Lemma load_missing_kept isW us u w :
  cur w = ENGINE -> kept w (fst (load_missing isW us u w)).
Proof.
  intros Hc. unfold load_missing. pose proof (load_iri_kept isW w u Hc) as H1.
  destruct (load_iri isW w u) as [w1 [new|e]]; simpl in H1; [|exact H1].
  cbv zeta. match goal with |- context [if ?c then fst (expire w1 ?d) else w1] =>
    set (w2 := if c then fst (expire w1 d) else w1) end.
  assert (kept w w2) as H2.
  { subst w2. destruct (_ && _); [|kd]. eapply kept_trans; [exact H1|apply expire_kept]. }
  clearbody w2. destruct (_ && _); [|exact H2].
  pose proof (w_delete_triples_kept w2 u (kept_cur _ _ H2 Hc)) as H3.
  destruct (w_delete_triples w2 u) as [w3 [e|]]; simpl in *; eapply kept_trans; eauto.
Qed.

Lemma load_next_kept isW missing us u w :
  cur w = ENGINE -> kept w (fst (load_next isW missing us u w)).
Proof.
  intros Hc. unfold load_next. case_decide; [by apply load_missing_kept|].
  case_decide; kd.
Qed.

(** [with EngineContext]: whatever the body does in the engine context without
    touching the user's buffers, the context is restored. *)
Lemma in_engine_kept {A} (f : wsess -> wsess * A) w :
  (forall w', cur w' = ENGINE -> kept w' (fst (f w'))) ->
  kept w (fst (in_engine f w)).
Proof.
  intros Hf. unfold in_engine. specialize (Hf (enter_engine w)).
  destruct (f (enter_engine w)) as [w' a] eqn:E. simpl in *.
  destruct Hf as (H1 & H2 & H3); [kd|].
  assert (ub (enter_engine w) = ub w /\ db (enter_engine w) = db w) as [Hu Hd].
  { unfold enter_engine. by case_decide. }
  split; [|split]; simpl; congruence.
Qed.

Lemma load_loop_kept isW missing us todo w :
  kept w (fst (load_loop isW missing us todo w)).
Proof.
  revert w; induction todo as [|u todo IH]; intros w; simpl; [kd|].
  pose proof (in_engine_kept (load_next isW missing us u) w
                (fun w' => load_next_kept isW missing us u w')) as H1.
  destruct (in_engine _ w) as [w1 [x|e]]; simpl in H1; [|exact H1].
  specialize (IH w1). destruct (load_loop isW missing us todo w1) as [w2 r].
  simpl in *. eapply kept_trans; eauto.
Qed.

Lemma wload_kept isW w us : kept w (fst (wload isW w us)).
Proof.
  unfold wload. destruct (wroot w); [|kd].
  eapply kept_trans; [|apply load_loop_kept]. kd.
Qed.

Lemma refresh_kept isW w us : kept w (fst (refresh isW w us)).
Proof.
  unfold refresh. destruct us as [|u us]; [kd|].
  destruct (expire w (list_to_set (u :: us))) as [w1 ids] eqn:E.
  pose proof (expire_kept w (list_to_set (u :: us))) as H0. rewrite E in H0. simpl in H0.
  pose proof (wload_kept isW w1 (elements ids)) as H1.
  destruct (wload isW w1 (elements ids)) as [w2 [x|e]]; simpl in *; eapply kept_trans; eauto.
Qed.

Lemma notify_read_kept isW w u : kept w (fst (notify_read isW w u)).
Proof. unfold notify_read. case_decide; [apply refresh_kept|kd]. Qed.

(** ** The buffers' invariant under arbitrary backends *)
Record buf_inv (w : wsess) : Prop := {
  bi_add : badd (ub w) ⊆ wreg w;
  bi_upd : bupd (ub w) ⊆ wreg w;
  bi_au : badd (ub w) ## bupd (ub w);
  bi_ad : badd (ub w) ## bdel (ub w);
  bi_ud : bupd (ub w) ## bdel (ub w);
  bi_exp : expd w ## badd (ub w) ∪ bupd (ub w)
}.

(** The zero uid does not occur in a session. *)
Record nz (w : wsess) : Prop := {
  nz_reg : 0%N ∉ wreg w;
  nz_gr : forall x q, (x, TLink q 0%N) ∉ wgr w;
  nz_root : wroot w <> Some 0%N
}.

Lemma sub_zero_nz r x : r <> 0%N -> sub_zero r x <> 0%N.
Proof. unfold sub_zero. case_decide; done. Qed.

Lemma sub_zero_root r x : r <> 0%N -> x <> 0%N -> sub_zero r (sub_root r x) = x.
Proof. unfold sub_zero, sub_root. intros Hr Hx. repeat case_decide; congruence. Qed.

Lemma map_graph_nz r g x q : r <> 0%N -> (x, TLink q 0%N) ∉ map_graph (sub_zero r) g.
Proof.
  intros Hr. rewrite elem_map_graph. intros ([y p] & _ & E). unfold map_triple in E. simpl in E.
  destruct p as [q' o| |]; simpl in E; [|congruence|congruence].
  assert (sub_zero r o = 0%N) as H0 by congruence. by apply sub_zero_nz in H0.
Qed.

Lemma notify_update_core w u : core (fst (notify_update w u)) = core w.
Proof.
  unfold notify_update. repeat case_decide; simpl; try done.
  unfold set_cur_buf. by destruct (cur w).
Qed.
Lemma notify_update_expd w u : expd (fst (notify_update w u)) = expd w.
Proof.
  unfold notify_update. repeat case_decide; simpl; try done.
  unfold set_cur_buf. by destruct (cur w).
Qed.
Lemma notify_delete_core w u : core (notify_delete w u) = core w.
Proof.
  unfold notify_delete. repeat case_decide; unfold set_cur_buf; by destruct (cur w).
Qed.
Lemma notify_delete_expd w u : expd (notify_delete w u) = expd w.
Proof.
  unfold notify_delete. repeat case_decide; unfold set_cur_buf; by destruct (cur w).
Qed.
Lemma set_cur_buf_core w b : core (set_cur_buf w b) = core w.
Proof. unfold set_cur_buf. by destruct (cur w). Qed.
Lemma set_cur_buf_expd w b : expd (set_cur_buf w b) = expd w.
Proof. unfold set_cur_buf. by destruct (cur w). Qed.

Lemma w_store_empty isW w u :
  wreg (fst (w_store isW w u ∅)) = wreg w ∪ {[u]} /\
  wgr (fst (w_store isW w u ∅)) = wgr w /\
  wroot (fst (w_store isW w u ∅)) = (match wroot w with Some r => Some r | None => Some u end) /\
  expd (fst (w_store isW w u ∅)) = expd w.
Proof.
  unfold w_store. change (classes ∅ u) with (@nil cls). simpl.
  split; [done|]. split; [|split; [done|by rewrite set_cur_buf_expd]].
  unfold wgr. simpl. set_solver.
Qed.

(** The exact effect of loading one uid on registry, graph, root and expired
    set; [v] is the uid of the object. *)
Lemma load_iri_effect isW w u w' res :
  load_iri isW w u = (w', res) ->
  (w' = w /\ (res = Ok None \/ (wroot w = None /\ res = Err AttributeError)) /\
     forall r, wroot w = Some r -> triples_of (db w) (sub_root r u) = ∅) \/
  exists r, wroot w = Some r /\
    triples_of (db w) (sub_root r u) <> ∅ /\
    let v := sub_zero r (sub_root r u) in
    wreg w' = wreg w ∪ {[v]} /\ wroot w' = Some r /\ expd w' = expd w ∖ {[v]} /\
    wgr w' = (if decide (v ∈ wreg w) then filter (fun t => fst t <> v) (wgr w) else wgr w)
             ∪ map_graph (sub_zero r) (triples_of (db w) (sub_root r u))
             ∪ map_graph (sub_zero r) (neighbor_types (db w) (sub_root r u)) /\
    (res = Ok (Some v) \/ exists e, res = Err e).
Proof.
  unfold load_iri. destruct (wroot w) as [r|] eqn:Er.
  2: { intros [= <- <-]. left. split; [done|]. split; [by right|done]. }
  case_decide as Hts.
  { intros [= <- <-]. left. split; [done|]. split; [by left|]. intros r' [= <-].
    destruct (decide (triples_of (db w) (sub_root r u) = ∅)) as [E|E]; [done|].
    by apply (map_graph_ne (sub_zero r)) in E. }
  set (v := sub_zero r (sub_root r u)). intros Hl. right. exists r. split; [done|].
  split; [intros E; rewrite E in Hts; apply Hts; done|]. cbv zeta.
  fold v in Hl. set (w1 := set_expd w (expd w ∖ {[v]})) in *.
  set (w2 := if decide (v ∈ wreg w1) then _ else _) in Hl.
  assert (wreg w2 = wreg w ∪ {[v]} /\ wroot w2 = Some r /\ expd w2 = expd w ∖ {[v]} /\
          wgr w2 = (if decide (v ∈ wreg w) then filter (fun t => fst t <> v) (wgr w) else wgr w))
    as (Hr2 & Ht2 & He2 & Hg2).
  { subst w2. change (wreg w1) with (wreg w).
    destruct (decide (v ∈ wreg w)) as [Hv|Hv].
    - split; [|done]. unfold set_wgr. change (wreg w = wreg w ∪ {[v]}). clear -Hv. set_solver.
    - destruct (w_store_empty isW w1 v) as (H1 & H2 & H3 & H4).
      rewrite H1, H2, H3, H4. change (wroot w1) with (wroot w). rewrite Er. done. }
  clearbody w2. set (w3 := set_wgr w2 _) in Hl.
  assert (wreg w3 = wreg w ∪ {[v]} /\ wroot w3 = Some r /\ expd w3 = expd w ∖ {[v]} /\
     wgr w3 = (if decide (v ∈ wreg w) then filter (fun t => fst t <> v) (wgr w) else wgr w)
             ∪ map_graph (sub_zero r) (triples_of (db w) (sub_root r u))
             ∪ map_graph (sub_zero r) (neighbor_types (db w) (sub_root r u)))
    as (Hr3 & Ht3 & He3 & Hg3).
  { subst w3. rewrite <- Hg2. done. }
  clearbody w3.
  destruct (store_checks isW (wroot w3) (wgr w3) v) as [e|].
  { simplify_eq. eauto 10. }
  pose proof (notify_update_core w3 v) as Hc. pose proof (notify_update_expd w3 v) as Hx.
  destruct (notify_update w3 v) as [w4 [e|]]; simpl in Hc, Hx; simplify_eq;
    unfold wreg, wroot, wgr; rewrite Hc; rewrite Hx; eauto 10.
Qed.

Lemma load_iri_bi isW w u w' res :
  load_iri isW w u = (w', res) -> cur w = ENGINE -> nz w ->
  nz w' /\ (buf_inv w -> buf_inv w') /\ wroot w' = wroot w /\ wreg w ⊆ wreg w' /\
  expd w' ⊆ expd w /\
  (forall x, res = Ok (Some x) -> x ∈ wreg w' /\ (u <> 0%N -> x = u)).
Proof.
  intros Hl Hc Hnz. pose proof (load_iri_kept isW w u Hc) as Hk. rewrite Hl in Hk. simpl in Hk.
  apply load_iri_effect in Hl as [(-> & Hr & _)|(r & Hr & _ & Hrg & Hrt & He & Hg & Hres)].
  { split; [done|]. split; [done|]. split; [done|]. split; [done|]. split; [done|].
    intros x ->. destruct Hr as [?|[_ ?]]; done. }
  set (v := sub_zero r (sub_root r u)) in *.
  assert (r <> 0%N) as Hr0 by (intros ->; by destruct Hnz).
  assert (v <> 0%N) as Hv0 by by apply sub_zero_nz.
  split; [|split; [|split; [|split; [|split]]]].
  - destruct Hnz as [Hn1 Hn2 Hn3]. constructor.
    + rewrite Hrg. set_solver.
    + intros x q. rewrite Hg, !elem_of_union. intros [[Hin|Hin]|Hin].
      * revert Hin. case_decide; [rewrite elem_of_filter; intros [_ Hin]|intros Hin]; by eapply Hn2.
      * exact (map_graph_nz _ _ _ _ Hr0 Hin).
      * exact (map_graph_nz _ _ _ _ Hr0 Hin).
    + congruence.
  - intros [H1 H2 H3 H4 H5 H6]. destruct Hk as (Hu & _ & _).
    constructor; rewrite ?Hu, ?Hrg, ?He; clear -H1 H2 H3 H4 H5 H6; set_solver.
  - congruence.
  - rewrite Hrg. set_solver.
  - rewrite He. set_solver.
  - intros x Hx. destruct Hres as [->|[e ->]]; [|done]. simplify_eq.
    split; [rewrite Hrg; set_solver|]. intros Hu. by apply sub_zero_root.
Qed.

Lemma expire_bi w us : buf_inv w -> buf_inv (fst (expire w us)).
Proof.
  intros [H1 H2 H3 H4 H5 H6]. unfold expire. simpl. constructor; simpl; try done.
  unfold buids, wreg. simpl. set_solver.
Qed.

Lemma w_delete_triples_effect w u w' e :
  w_delete_triples w u = (w', e) ->
  (u ∉ wreg w /\ w' = w /\ e = Some KeyError) \/
  (u ∈ wreg w /\ e = None /\ wreg w' = wreg w ∖ {[u]} /\ wroot w' = wroot w /\
   wgr w' = filter (fun t => fst t <> u) (wgr w) /\ expd w' = expd w).
Proof.
  unfold w_delete_triples, delete_triples, wreg. case_decide as Hu; intros [= <- <-].
  - right. unfold wreg, wroot, wgr. rewrite notify_delete_core, notify_delete_expd. done.
  - by left.
Qed.

Lemma load_missing_bi isW us u w w' res :
  load_missing isW us u w = (w', res) -> cur w = ENGINE -> nz w ->
  nz w' /\ wroot w' = wroot w /\
  (u ∉ badd (ub w) ∪ bupd (ub w) -> buf_inv w -> buf_inv w') /\
  (forall x, x ∈ us -> x ∉ expd w -> x ∉ expd w') /\
  (forall x, x ∈ wreg w -> x <> u -> x ∈ wreg w') /\
  (forall x, res = Ok (Some x) -> x ∈ wreg w' /\ (u <> 0%N -> x = u)) /\
  (res = Ok None -> u ∉ wreg w' ).
Proof.
  intros Hl Hc Hnz. pose proof (load_missing_kept isW us u w Hc) as Hk. rewrite Hl in Hk. simpl in Hk.
  unfold load_missing in Hl.
  destruct (load_iri isW w u) as [w1 r1] eqn:E1.
  pose proof (load_iri_kept isW w u Hc) as Hk1. rewrite E1 in Hk1. simpl in Hk1.
  pose proof (load_iri_bi _ _ _ _ _ E1 Hc Hnz) as (Hn1 & Hb1 & Hrt1 & Hrg1 & He1 & Hx1).
  destruct r1 as [new|e].
  2: { simplify_eq. split; [done|]. split; [done|]. split; [by intros _|].
       split; [set_solver|]. split; [set_solver|]. split; [done|done]. }
  cbv zeta in Hl.
  match type of Hl with context [if ?c then fst (expire w1 ?d) else w1] =>
    set (dd := d) in Hl; set (cc := c) in Hl end.
  assert (Hd : forall x, x ∈ us -> x ∉ dd) by (intros x Hx; unfold dd; set_solver).
  set (w2 := if cc then fst (expire w1 dd) else w1) in Hl.
  assert (core w2 = core w1 /\ kept w w2 /\ (buf_inv w1 -> buf_inv w2) /\
          (forall x, x ∈ us -> x ∉ expd w -> x ∉ expd w2)) as (Hc2 & Hk2 & Hb2 & He2).
  { subst w2. destruct cc.
    - split; [done|]. split; [exact Hk1|]. split; [apply expire_bi|].
      intros x Hx Hn. simpl. specialize (Hd x Hx). set_solver.
    - split; [done|]. split; [done|]. split; [done|]. set_solver. }
  assert (Hr2 : wreg w2 = wreg w1) by (unfold wreg; by rewrite Hc2).
  assert (Hn2 : nz w2) by (destruct Hn1; constructor; unfold wreg, wgr, wroot in *; rewrite Hc2; done).
  assert (Ht2 : wroot w2 = wroot w) by (unfold wroot in *; rewrite Hc2; done).
  clearbody w2 dd cc.
  destruct (bool_decide (u ∈ wreg w) && bool_decide (new = None) && bool_decide (u ∈ wreg w2)) eqn:Ec.
  - apply andb_true_iff in Ec as [[Eu En]%andb_true_iff E2].
    apply bool_decide_eq_true in Eu, En, E2. subst new.
    pose proof (w_delete_triples_kept w2 u) as Hk3.
    destruct (w_delete_triples w2 u) as [w3 e3] eqn:E3. simpl in Hk3.
    apply w_delete_triples_effect in E3 as [(Hno & _)|(_ & -> & Hr3 & Ht3 & Hg3 & He3)]; [done|].
    simplify_eq. split; [|split; [|split; [|split; [|split; [|split]]]]].
    + destruct Hn2 as [N1 N2 N3]. constructor.
      * rewrite Hr3. set_solver.
      * intros x q. rewrite Hg3, elem_of_filter. intros [_ Hin]. by eapply N2.
      * rewrite Ht3. done.
    + congruence.
    + intros Hu Hb. destruct (Hb2 (Hb1 Hb)) as [B1 B2 B3 B4 B5 B6].
      destruct Hk as (Hku & _). destruct Hk2 as (Hku2 & _).
      rewrite Hku2 in *. constructor; rewrite ?Hku, ?Hr3, ?He3; try done;
        clear -Hu B1 B2 B6; set_solver.
    + intros x Hx Hn. rewrite He3. by apply He2.
    + intros x Hx Hne. rewrite Hr3, Hr2. set_solver.
    + done.
    + intros _. rewrite Hr3. set_solver.
  - simplify_eq. split; [done|]. split; [done|]. split; [auto|]. split; [done|].
    split; [intros x Hx _; rewrite Hr2; set_solver|].
    split; [intros x Hx; rewrite Hr2; by apply Hx1|].
    intros [= ->]. rewrite Hr2.
    apply load_iri_effect in E1 as [(-> & _)|(r & _ & _ & _ & _ & _ & _ & [?|[e ?]])]; [|done|done].
    destruct (decide (u ∈ wreg w)) as [Hu|]; [|done].
    rewrite Hr2 in Ec.
    rewrite !bool_decide_true in Ec by done. done.
Qed.

(** Entering the engine context does not change what the invariants speak of. *)
Lemma enter_engine_same w :
  core (enter_engine w) = core w /\ ub (enter_engine w) = ub w /\
  expd (enter_engine w) = expd w /\ db (enter_engine w) = db w /\
  cur (enter_engine w) = ENGINE.
Proof. unfold enter_engine. by case_decide. Qed.

Lemma buf_inv_ext w w' :
  core w' = core w -> ub w' = ub w -> expd w' = expd w -> buf_inv w -> buf_inv w'.
Proof.
  intros Hc Hu He [H1 H2 H3 H4 H5 H6].
  constructor; unfold wreg; rewrite ?Hc, ?Hu, ?He; done.
Qed.
Lemma nz_ext w w' : core w' = core w -> nz w -> nz w'.
Proof. intros Hc [H1 H2 H3]. constructor; unfold wreg, wgr, wroot; rewrite Hc; done. Qed.

(** One element of load(), in its engine context. *)
Lemma load_elem_bi isW missing us u w w' res :
  in_engine (load_next isW missing us u) w = (w', res) -> nz w ->
  nz w' /\ wroot w' = wroot w /\ kept w w' /\
  ((u ∈ missing -> u ∉ badd (ub w) ∪ bupd (ub w)) -> buf_inv w -> buf_inv w') /\
  (forall x, x ∈ us -> x ∉ expd w -> x ∉ expd w') /\
  (forall x, x ∈ wreg w -> x <> u -> x ∈ wreg w') /\
  (forall x, res = Ok (Some x) -> x ∈ wreg w' /\ (u <> 0%N -> x = u)) /\
  (res = Ok None -> u ∉ wreg w').
Proof.
  intros Hl Hnz. pose proof (in_engine_kept (load_next isW missing us u) w
                (fun w' => load_next_kept isW missing us u w')) as Hk.
  rewrite Hl in Hk. simpl in Hk.
  unfold in_engine in Hl. destruct (enter_engine_same w) as (H1 & H2 & H3 & H4 & H5).
  set (w0 := enter_engine w) in *. clearbody w0.
  destruct (load_next isW missing us u w0) as [w1 r1] eqn:E. injection Hl as <- <-.
  unfold load_next in E.
  assert (nz w0) as Hnz0 by by apply (nz_ext w).
  destruct (decide (u ∈ missing)) as [Hm|Hm].
  - pose proof (load_missing_bi _ _ _ _ _ _ E H5 Hnz0) as (A1 & A2 & A3 & A4 & A5 & A6 & A7).
    split; [by apply (nz_ext w1)|]. split; [unfold wroot in *; simpl; congruence|].
    split; [done|].
    split. { intros Hn Hb. apply (buf_inv_ext w1); [done..|]. apply A3.
             { rewrite H2. by apply Hn. } by apply (buf_inv_ext w). }
    split. { intros x Hx Hn. simpl. apply A4; [done|]. congruence. }
    split. { intros x Hx Hn. change (x ∈ wreg w1). apply A5; [|done]. unfold wreg. by rewrite H1. }
    split; [exact A6|exact A7].
  - destruct (decide (u ∈ wreg w0)) as [Hu|Hu]; simplify_eq.
    + split; [by apply (nz_ext w1)|]. split; [unfold wroot; simpl; congruence|].
      split; [done|]. split. { intros _ Hb. by apply (buf_inv_ext w). }
      split. { intros x Hx Hn. simpl. congruence. }
      split. { intros x Hx Hn. unfold wreg. simpl. by rewrite H1. }
      split. { intros x [= ->]. done. } done.
    + split; [by apply (nz_ext w1)|]. split; [unfold wroot; simpl; congruence|].
      split; [done|]. split. { intros _ Hb. by apply (buf_inv_ext w). }
      split. { intros x Hx Hn. simpl. congruence. }
      split. { intros x Hx Hn. unfold wreg. simpl. by rewrite H1. }
      split; done.
Qed.

Lemma load_loop_bi isW missing us todo w w' res :
  load_loop isW missing us todo w = (w', res) -> nz w ->
  nz w' /\ wroot w' = wroot w /\ kept w w' /\
  (missing ## badd (ub w) ∪ bupd (ub w) -> buf_inv w -> buf_inv w') /\
  (forall x, x ∈ us -> x ∉ expd w -> x ∉ expd w') /\
  (forall x, x ∈ wreg w -> x ∉ todo -> x ∈ wreg w').
Proof.
  revert w w' res; induction todo as [|u todo IH]; intros w w' res Hl Hnz; simpl in Hl.
  { simplify_eq. split; [done|]. split; [done|]. split; [kd|]. split; [done|]. split; done. }
  destruct (in_engine (load_next isW missing us u) w) as [w1 r1] eqn:E1.
  pose proof (load_elem_bi _ _ _ _ _ _ _ E1 Hnz) as (A1 & A2 & A3 & A4 & A5 & A6 & _ & _).
  destruct r1 as [x|e].
  - destruct (load_loop isW missing us todo w1) as [w2 r2] eqn:E2. simplify_eq.
    pose proof (IH _ _ _ E2 A1) as (B1 & B2 & B3 & B4 & B5 & B6).
    split; [done|]. split; [congruence|]. split; [by eapply kept_trans|].
    split. { intros Hm Hb. apply B4; [|apply A4; [|done]].
             - destruct A3 as (-> & _). done.
             - intros Hu. clear -Hm Hu. set_solver. }
    split; [auto|]. intros y Hy Hn. apply not_elem_of_cons in Hn as [Hn1 Hn2]. auto.
  - simplify_eq. split; [done|]. split; [done|]. split; [done|].
    split. { intros Hm Hb. apply A4; [|done]. intros Hu. clear -Hm Hu. set_solver. }
    split; [auto|]. intros y Hy Hn. apply not_elem_of_cons in Hn as [Hn1 Hn2]. auto.
Qed.

Lemma load_prelude_bi w us : buf_inv w -> buf_inv (load_prelude w us).
Proof.
  intros [H1 H2 H3 H4 H5 H6]. constructor; simpl; try done.
  clear -H6. set_solver.
Qed.

Lemma missing_not_pending w us :
  buf_inv w -> (list_to_set (missing_uids w us) : gset uid) ## badd (ub w) ∪ bupd (ub w).
Proof.
  intros [H1 H2 _ _ _ H6] x Hx Hb. apply elem_of_list_to_set, elem_of_list_filter in Hx as [[Hn|He] _].
  - clear -H1 H2 Hn Hb. set_solver.
  - clear -H6 He Hb. set_solver.
Qed.

Lemma wload_bi isW w us w' res :
  wload isW w us = (w', res) -> nz w ->
  nz w' /\ wroot w' = wroot w /\ kept w w' /\ (buf_inv w -> buf_inv w') /\
  (wroot w <> None -> forall x, x ∈ us -> x ∉ expd w') /\
  (forall x, x ∈ wreg w -> x ∉ us -> x ∈ wreg w').
Proof.
  unfold wload. destruct (wroot w) as [r|] eqn:Er; intros Hl Hnz.
  - assert (nz (load_prelude w us)) as Hnz0 by by apply (nz_ext w).
    pose proof (load_loop_bi _ _ _ _ _ _ _ Hl Hnz0) as (B1 & B2 & B3 & B4 & B5 & B6).
    split; [done|]. split; [rewrite B2; exact Er|].
    split; [exact B3|].
    split. { intros Hb. apply B4; [exact (missing_not_pending w us Hb)|by apply load_prelude_bi]. }
    split; [|exact B6].
    intros _ x Hx. apply B5; [done|]. simpl. clear -Hx. set_solver.
  - simplify_eq. split; [done|]. split; [done|]. split; [kd|]. split; [done|]. split; done.
Qed.

Lemma refresh_bi isW w us w' res :
  refresh isW w us = (w', res) -> nz w ->
  nz w' /\ wroot w' = wroot w /\ kept w w' /\ (buf_inv w -> buf_inv w') /\
  (wroot w <> None -> forall x, x ∈ us -> x ∉ buids (ub w) -> x ∈ wreg w -> x ∉ expd w').
Proof.
  unfold refresh. destruct us as [|u us]; intros Hl Hnz.
  { simplify_eq. split; [done|]. split; [done|]. split; [kd|]. split; [done|].
    intros _ x Hx. by apply elem_of_nil in Hx. }
  destruct (expire w (list_to_set (u :: us))) as [w1 ids] eqn:E1.
  pose proof (expire_bi w (list_to_set (u :: us))) as Hb1. rewrite E1 in Hb1. simpl in Hb1.
  unfold expire in E1.
  assert (core w1 = core w /\ kept w w1) as [Hc1 Hk1] by (injection E1 as <- _; split; [done|kd]).
  assert (nz w1) as Hn1 by by apply (nz_ext w).
  destruct (wload isW w1 (elements ids)) as [w2 r2] eqn:E2.
  pose proof (wload_bi _ _ _ _ _ E2 Hn1) as (B1 & B2 & B3 & B4 & B5 & B6).
  assert (w' = w2) as -> by (destruct r2; congruence).
  split; [done|]. split; [unfold wroot in *; congruence|].
  split; [by eapply kept_trans|]. split; [auto|].
  intros Hr x Hx Hn Hxr.
  apply B5; [unfold wroot in *; congruence|]. apply elem_of_elements.
  injection E1 as _ <-. clear -Hx Hxr Hn. set_solver.
Qed.

Lemma notify_read_bi isW w u w' res :
  notify_read isW w u = (w', res) -> nz w ->
  nz w' /\ wroot w' = wroot w /\ kept w w' /\ (buf_inv w -> buf_inv w') /\
  (wroot w <> None -> buf_inv w -> u ∈ wreg w' -> u ∉ expd w' \/ u ∈ bdel (ub w)).
Proof.
  unfold notify_read. case_decide as Hu; intros Hl Hnz.
  - pose proof (refresh_bi _ _ _ _ _ Hl Hnz) as (B1 & B2 & B3 & B4 & B5).
    split; [done|]. split; [done|]. split; [done|]. split; [done|].
    intros Hr Hb Hin. destruct (decide (u ∈ bdel (ub w))) as [Hd|Hd]; [by right|left].
    assert (u ∉ buids (ub w)) as Hnb.
    { destruct Hb as [_ _ _ _ _ H6]. unfold buids. clear -H6 Hu Hd. set_solver. }
    destruct (decide (u ∈ wreg w)) as [Hur|Hur].
    + apply B5; [done|set_solver|done|done].
    + exfalso. unfold refresh in Hl. unfold expire in Hl.
      assert (Hids : (list_to_set [u] ∖ buids (ub w)) ∩ wreg w = ∅) by (clear -Hur; set_solver).
      rewrite Hids in Hl. rewrite elements_empty in Hl. unfold wload in Hl.
      change (wroot (set_expd _ _)) with (wroot w) in Hl.
      destruct (wroot w); [|done]. simpl in Hl. by simplify_eq.
  - simplify_eq. split; [done|]. split; [done|]. split; [kd|]. split; [done|].
    by left.
Qed.

(** A write of the user. *)
Lemma notify_update_user w u w' e :
  notify_update w u = (w', e) -> cur w = USER ->
  core w' = core w /\ expd w' = expd w /\ cur w' = USER /\ db w' = db w /\
  badd (ub w') = badd (ub w) /\ bdel (ub w') = bdel (ub w) /\
  (bupd (ub w') = bupd (ub w) \/
   (bupd (ub w') = bupd (ub w) ∪ {[u]} /\ u ∉ buids (ub w))) /\
  (e = Some RuntimeError /\ u ∈ bdel (ub w) /\ w' = w \/
   e = None /\ u ∉ bdel (ub w) /\ u ∈ badd (ub w') ∪ bupd (ub w')).
Proof.
  unfold notify_update, cur_buf, set_cur_buf, buids. intros Hl Hc. rewrite Hc in Hl.
  repeat case_decide; simplify_eq; simpl; rewrite ?Hc.
  - repeat (split; [done|]). split; [by left|]. by left.
  - repeat (split; [done|]). split; [by left|]. right. done.
  - repeat (split; [done|]). split; [right; set_solver|]. right. set_solver.
Qed.

Lemma w_write_bi isW f w u w' e :
  w_write isW f w u = (w', e) -> cur w = USER -> nz w -> wroot w <> None ->
  (forall s, reg (f s) = reg s /\ root (f s) = root s) ->
  (forall s, (forall x q, (x, TLink q 0%N) ∉ gr s) -> forall x q, (x, TLink q 0%N) ∉ gr (f s)) ->
  nz w' /\ wroot w' = wroot w /\ cur w' = USER /\ db w' = db w /\
  bdel (ub w') = bdel (ub w) /\ badd (ub w') = badd (ub w) /\
  bupd (ub w) ⊆ bupd (ub w') ⊆ bupd (ub w) ∪ {[u]} /\
  (u ∈ bdel (ub w) -> bupd (ub w') = bupd (ub w)) /\
  (buf_inv w -> buf_inv w').
Proof.
  intros Hl Hc Hnz Hroot Hf Hz. unfold w_write in Hl.
  destruct (notify_read isW w u) as [w1 [e1|]] eqn:E1;
    pose proof (notify_read_bi _ _ _ _ _ E1 Hnz) as (B1 & B2 & (K1 & K2 & K3) & B4 & B5).
  { simplify_eq. rewrite K1, K2, K3. repeat (split; [done|]). split; [set_solver|]. done. }
  case_decide as Hin.
  2: { simplify_eq. rewrite K1, K2, K3. repeat (split; [done|]). split; [set_solver|]. done. }
  set (w2 := set_core w1 (f (core w1))) in *.
  assert (cur w2 = USER) as Hc2 by (subst w2; simpl; congruence).
  pose proof (notify_update_user _ _ _ _ Hl Hc2) as (C1 & C2 & C3 & C4 & C5 & C6 & C7 & C8).
  destruct (Hf (core w1)) as [Hf1 Hf2].
  assert (Hrg : wreg w' = wreg w1) by (unfold wreg; rewrite C1; exact Hf1).
  change (ub w2) with (ub w1) in *. change (db w2) with (db w1) in *.
  change (expd w2) with (expd w1) in *. rewrite K1 in *.
  split.
  { destruct B1 as [N1 N2 N3]. constructor.
    - by rewrite Hrg.
    - unfold wgr. rewrite C1. simpl. by apply Hz.
    - unfold wroot. rewrite C1. simpl. rewrite Hf2. exact N3. }
  split. { unfold wroot in *. rewrite C1. simpl. by rewrite Hf2. }
  split; [done|]. split; [congruence|]. split; [done|]. split; [done|].
  split. { clear -C7. destruct C7 as [->|[-> _]]; set_solver. }
  split. { intros Hd. destruct C7 as [?|[_ Hn]]; [done|]. exfalso. clear -Hd Hn. unfold buids in Hn. set_solver. }
  intros Hb. specialize (B5 Hroot Hb Hin). specialize (B4 Hb). destruct B4 as [D1 D2 D3 D4 D5 D6].
  rewrite K1 in *. clear Hl Hz Hf.
  constructor; rewrite ?C5, ?C6, ?C2, ?Hrg; try done.
  - destruct C7 as [->|[-> _]]; [done|]. change (u ∈ wreg w1) in Hin. clear -D2 Hin. set_solver.
  - destruct C7 as [->|[-> Hn]]; [done|]. unfold buids in Hn. clear -D3 Hn. set_solver.
  - destruct C7 as [->|[-> Hn]]; [done|]. unfold buids in Hn. clear -D5 Hn. set_solver.
  - destruct C7 as [->|[-> Hn]]; [done|]. destruct B5 as [B5|B5].
    + clear -D6 B5. set_solver.
    + exfalso. unfold buids in Hn. clear -Hn B5. set_solver.
Qed.

(** ** All operations keep the buffers' invariant *)
Record buf_ok (w : wsess) : Prop := {
  bo_inv : buf_inv w;
  bo_nz : nz w;
  bo_cur : cur w = USER;
  bo_root : wroot w = None -> wreg w = ∅ /\ expd w = ∅
}.

Lemma buf_ok_root w u : buf_ok w -> u ∈ wreg w -> wroot w <> None.
Proof. intros Hb Hu Hn. destruct (bo_root _ Hb Hn) as [He _]. rewrite He in Hu. set_solver. Qed.

Lemma buf_ok_nz w u : buf_ok w -> u ∈ wreg w -> u <> 0%N.
Proof. intros [_ [Hn _ _] _ _] Hu ->. done. Qed.

Lemma w_write_ok isW f w u w' e :
  w_write isW f w u = (w', e) -> buf_ok w -> wroot w <> None ->
  (forall s, reg (f s) = reg s /\ root (f s) = root s) ->
  (forall s, (forall x q, (x, TLink q 0%N) ∉ gr s) -> forall x q, (x, TLink q 0%N) ∉ gr (f s)) ->
  buf_ok w' /\ wroot w' = wroot w /\
  bdel (ub w') = bdel (ub w) /\ badd (ub w') = badd (ub w) /\
  bupd (ub w) ⊆ bupd (ub w') ⊆ bupd (ub w) ∪ {[u]} /\
  (u ∈ bdel (ub w) -> bupd (ub w') = bupd (ub w)).
Proof.
  intros Hl [B1 B2 B3 B4] Hr Hf Hz.
  pose proof (w_write_bi _ _ _ _ _ _ Hl B3 B2 Hr Hf Hz) as (C1 & C2 & C3 & C4 & C5 & C6 & C7 & C8 & C9).
  split; [|done]. constructor; [auto|done|done|]. rewrite C2. done.
Qed.

Lemma w_link_ok isW w a r b w' e :
  w_link isW w a r b = (w', e) -> buf_ok w -> wroot w <> None -> b <> 0%N ->
  buf_ok w' /\ wroot w' = wroot w.
Proof.
  intros Hl Hb Hr Hne. unfold w_link in Hl.
  destruct (w_write_ok _ _ _ _ _ _ Hl Hb Hr) as (C1 & C2 & _); [done| |done].
  intros s Hs x q. simpl. rewrite add_direct_spec. intros [Hin|Heq]; [by eapply Hs|congruence].
Qed.

Lemma w_unlink_ok isW w a r b w' e :
  w_unlink isW w a r b = (w', e) -> buf_ok w -> wroot w <> None ->
  buf_ok w' /\ wroot w' = wroot w /\
  bdel (ub w') = bdel (ub w) /\ badd (ub w') = badd (ub w) /\
  bupd (ub w) ⊆ bupd (ub w') ⊆ bupd (ub w) ∪ {[a]} /\
  (a ∈ bdel (ub w) -> bupd (ub w') = bupd (ub w)).
Proof.
  intros Hl Hb Hr. unfold w_unlink in Hl.
  refine (w_write_ok _ _ _ _ _ _ Hl Hb Hr _ _); [done|].
  intros s Hs x q. simpl. unfold remove_direct. intros [Hin _]%elem_of_difference. by eapply Hs.
Qed.

Lemma w_set_attr_ok isW w u a l w' e :
  w_set_attr isW w u a l = (w', e) -> buf_ok w -> wroot w <> None -> buf_ok w' /\ wroot w' = wroot w.
Proof.
  intros Hl Hb Hr. unfold w_set_attr in Hl.
  destruct (w_write_ok _ _ _ _ _ _ Hl Hb Hr) as (C1 & C2 & _); [done| |done].
  intros s Hs x q. rewrite set_attr_spec. intros [Heq|[Hin _]]; [congruence|by eapply Hs].
Qed.

Lemma notify_read_ok isW w u w' e :
  notify_read isW w u = (w', e) -> buf_ok w ->
  buf_ok w' /\ wroot w' = wroot w /\ kept w w' /\
  (u ∈ wreg w' -> u ∉ expd w' \/ u ∈ bdel (ub w')).
Proof.
  intros Hl Hb. destruct Hb as [B1 B2 B3 B4].
  destruct (wroot w) as [r|] eqn:Er.
  - pose proof (notify_read_bi _ _ _ _ _ Hl B2) as (C1 & C2 & C3 & C4 & C5).
    rewrite Er in C2, C5. split; [|split; [done|split; [done|]]].
    + constructor; [auto|done|destruct C3 as (_ & -> & _); done|]. rewrite C2. done.
    + intros Hin. destruct C3 as (-> & _). by apply C5.
  - destruct (B4 eq_refl) as [Hrg He]. unfold notify_read in Hl. rewrite He in Hl.
    rewrite decide_False in Hl by set_solver. simplify_eq.
    split; [constructor; auto|]. split; [done|]. split; [kd|].
    left. rewrite He. set_solver.
Qed.

Lemma w_add_ok isW O a r bs w w' e :
  w_add isW O w a r bs = (w', e) -> buf_ok w -> wroot w <> None ->
  a <> 0%N -> Forall (fun b => b <> 0%N) bs -> buf_ok w' /\ wroot w' = wroot w.
Proof.
  revert w w' e; induction bs as [|b bs IH]; intros w w' e Hl Hb Hr Ha Hbs; simpl in Hl.
  { by simplify_eq. }
  apply Forall_cons_1 in Hbs as [Hb0 Hbs].
  destruct (notify_read isW w a) as [w0 [e0|]] eqn:E0;
    pose proof (notify_read_ok _ _ _ _ _ E0 Hb) as (A1 & A2 & _ & _); [by simplify_eq|].
  destruct (_ && _); [by simplify_eq|].
  destruct (w_link isW w0 a r b) as [w1 [e1|]] eqn:E1;
    (pose proof (w_link_ok _ _ _ _ _ _ _ E1 A1 ltac:(congruence) Hb0) as (B1 & B2));
    [simplify_eq; split; [done|congruence]|].
  destruct (w_link isW w1 b (o_inv O r) a) as [w2 [e2|]] eqn:E2;
    (pose proof (w_link_ok _ _ _ _ _ _ _ E2 B1 ltac:(congruence) Ha) as (C1 & C2));
    [simplify_eq; split; [done|congruence]|].
  destruct (w_add isW O w2 a r bs) as [w3 rv] eqn:E3. simplify_eq.
  destruct (IH _ _ _ E3 C1 ltac:(congruence) Ha Hbs). split; [done|congruence].
Qed.

Lemma wload_ok isW w us w' res :
  wload isW w us = (w', res) -> buf_ok w ->
  buf_ok w' /\ wroot w' = wroot w /\ kept w w'.
Proof.
  intros Hl [B1 B2 B3 B4].
  pose proof (wload_bi _ _ _ _ _ Hl B2) as (C1 & C2 & C3 & C4 & C5 & C6).
  split; [|done]. constructor; [auto|done|destruct C3 as (_ & -> & _); done|].
  destruct (wroot w) eqn:Er; [rewrite C2; done|]. intros _.
  unfold wload in Hl. rewrite Er in Hl. simplify_eq. by apply B4.
Qed.

Lemma w_get__ok isW O w a uids rf oc w' res :
  w_get_ isW O w a uids rf oc = (w', res) -> buf_ok w ->
  buf_ok w' /\ wroot w' = wroot w /\
  (forall found m, res = Ok (found, m) ->
     (uids = [] \/ oc = None) /\
     res = get_ O (if decide (a ∈ wreg w') then wgr w' else ∅) a uids rf oc /\
     (a ∈ wreg w' -> a ∉ expd w' \/ a ∈ bdel (ub w'))).
Proof.
  intros Hl Hb. unfold w_get_ in Hl.
  destruct uids as [|u uids].
  - destruct (notify_read isW w a) as [w1 [e1|]] eqn:E1;
      pose proof (notify_read_ok _ _ _ _ _ E1 Hb) as (A1 & A2 & _ & A4); simplify_eq.
    + split; [done|]. split; [done|]. done.
    + split; [done|]. split; [done|]. intros found m Hm. split; [by left|]. done.
  - destruct oc as [c|].
    + simplify_eq. done.
    + destruct (notify_read isW w a) as [w1 [e1|]] eqn:E1;
        pose proof (notify_read_ok _ _ _ _ _ E1 Hb) as (A1 & A2 & _ & A4); simplify_eq.
      * split; [done|]. split; [done|]. done.
      * split; [done|]. split; [done|]. intros found m Hm. split; [by right|]. done.
Qed.

Lemma w_get_ok isW O w a uids rf oc w' res :
  w_get isW O w a uids rf oc = (w', res) -> buf_ok w -> buf_ok w' /\ wroot w' = wroot w.
Proof.
  intros Hl Hb. unfold w_get in Hl.
  destruct (w_get_ isW O w a uids rf oc) as [w1 r1] eqn:E1.
  pose proof (w_get__ok _ _ _ _ _ _ _ _ _ E1 Hb) as (A1 & A2 & _).
  destruct r1 as [[us m]|e]; [|by simplify_eq].
  destruct (wload isW w1 (omap id us)) as [w2 r2] eqn:E2.
  pose proof (wload_ok _ _ _ _ _ E2 A1) as (B1 & B2 & _).
  destruct r2 as [loaded|e]; [|by simplify_eq; split; [done|congruence]].
  assert (w' = w2) as ->.
  { cbv zeta in Hl. destruct uids as [|u [|]]; [congruence| |congruence].
    destruct (load_back us loaded); congruence. }
  split; [done|congruence].
Qed.

Lemma w_remove_rels_ok isW O a b nb rs w w' e :
  w_remove_rels isW O w a b nb rs = (w', e) -> buf_ok w -> wroot w <> None ->
  buf_ok w' /\ wroot w' = wroot w /\ bdel (ub w') = bdel (ub w) /\
  badd (ub w') = badd (ub w) /\
  bupd (ub w') ⊆ bupd (ub w) ∪ {[a]} ∪ list_to_set (option_list nb) /\
  (a ∈ bdel (ub w) -> bupd (ub w') ⊆ bupd (ub w) ∪ list_to_set (option_list nb)).
Proof.
  revert w w' e; induction rs as [|r rs IH]; intros w w' e Hl Hb Hr; simpl in Hl.
  { simplify_eq. repeat (split; [done|]). split; set_solver. }
  destruct (w_unlink isW w a r b) as [w1 [e1|]] eqn:E1;
    pose proof (w_unlink_ok _ _ _ _ _ _ _ E1 Hb Hr) as (A1 & A2 & A3 & A4 & A5 & A6).
  { simplify_eq. repeat (split; [done|]). clear -A5 A6. split; [set_solver|].
    intros Ha. rewrite A6 by done. set_solver. }
  destruct nb as [v|].
  2: { simplify_eq. repeat (split; [done|]). clear -A5 A6. split; [set_solver|].
    intros Ha. rewrite A6 by done. set_solver. }
  destruct (w_unlink isW w1 v (o_inv O r) a) as [w2 [e2|]] eqn:E2;
    (pose proof (w_unlink_ok _ _ _ _ _ _ _ E2 A1 ltac:(congruence)) as (B1 & B2 & B3 & B4 & B5 & B6)).
  { simplify_eq. split; [done|]. split; [congruence|]. split; [congruence|]. split; [congruence|].
    simpl. destruct A5 as [_ A5]. destruct B5 as [_ B5].
    clear -A5 A6 B5. split; [set_solver|].
    intros Ha. specialize (A6 Ha). rewrite A6 in B5. clear -B5. set_solver. }
  destruct (IH _ _ _ Hl B1 ltac:(congruence)) as (C1 & C2 & C3 & C4 & C5 & C6).
  split; [done|]. split; [congruence|]. split; [congruence|]. split; [congruence|].
  simpl in *. split.
  - destruct A5 as [_ A5]. destruct B5 as [_ B5]. clear -A5 B5 C5.
    assert (bupd (ub w2) ⊆ bupd (ub w) ∪ {[a]} ∪ {[v]}) as H by (clear C5; set_solver).
    clear A5 B5. set_solver.
  - intros Ha. rewrite B3, A3 in C6. specialize (A6 Ha). specialize (C6 Ha). rewrite A6 in B5.
    clear -B5 C6. set_solver.
Qed.

Lemma w_remove_all_ok isW O missing us a m w w' e :
  w_remove_all isW O missing us w a m = (w', e) -> buf_ok w -> wroot w <> None ->
  0%N ∉ m.*1 -> NoDup m.*1 ->
  (forall x, x ∈ m.*1 -> x ∈ missing -> x ∉ badd (ub w) ∪ bupd (ub w)) ->
  (a ∈ missing -> a ∈ bdel (ub w)) ->
  buf_ok w' /\ wroot w' = wroot w.
Proof.
  revert w w' e; induction m as [|[b rs] m IH]; intros w w' e Hl Hb Hr H0 Hnd Hm Ha; simpl in Hl.
  { by simplify_eq. }
  apply not_elem_of_cons in H0 as [Hb0 H0]. apply stdpp.list.NoDup_cons in Hnd as [Hbm Hnd].
  destruct (in_engine (load_next isW missing us b) w) as [w1 r1] eqn:E1.
  destruct Hb as [I1 I2 I3 I4].
  pose proof (load_elem_bi _ _ _ _ _ _ _ E1 I2) as (A1 & A2 & A3 & A4 & A5 & A6 & A7 & A8).
  assert (buf_ok w1) as Hb1.
  { constructor; [|done|destruct A3 as (_ & -> & _); done|rewrite A2; done].
    apply A4; [|done]. intros Hbm'. apply Hm; [left|done]. }
  destruct r1 as [nb|e1]; [|by simplify_eq].
  destruct (w_remove_rels isW O w1 a b nb (elements rs)) as [w2 e2] eqn:E2.
  destruct (w_remove_rels_ok _ _ _ _ _ _ _ _ _ E2 Hb1 ltac:(congruence)) as (B1 & B2 & B3 & B4 & B5 & B6).
  destruct e2 as [e2|]; [simplify_eq; split; [done|congruence]|].
  destruct A3 as (K1 & _ & _).
  destruct (IH _ _ _ Hl B1 ltac:(congruence) H0 Hnd) as [C1 C2].
  - intros x Hx Hxm. assert (x <> b) as Hxb by (intros ->; done).
    assert (forall v, nb = Some v -> v = b) as Hnb.
    { intros v ->. destruct (A7 v eq_refl) as [_ Hv]. apply Hv. intros ->. by apply Hb0. }
    rewrite B4, K1. rewrite K1 in B6.
    assert (x ∉ badd (ub w) ∪ bupd (ub w)) as Hxo by (apply Hm; [by right|done]).
    assert (bupd (ub w2) ⊆ bupd (ub w) ∪ {[b]} ∪ {[a]}) as Hsub.
    { destruct nb as [v|]; simpl in B5; [rewrite (Hnb v eq_refl) in B5|];
        rewrite ?K1 in B5; clear -B5; set_solver. }
    destruct (decide (x = a)) as [->|Hxa].
    + specialize (Ha Hxm). specialize (B6 Ha).
      destruct nb as [v|]; simpl in B6; [rewrite (Hnb v eq_refl) in B6|];
        rewrite ?K1 in B6; clear -B6 Hxo Hxb; set_solver.
    + clear -Hsub Hxo Hxb Hxa. set_solver.
  - rewrite B3, K1. done.
  - split; [done|congruence].
Qed.

Lemma get__links O g a uids rf oc found m :
  get_ O g a uids rf oc = Ok (found, m) -> 
  rm_wf m /\ forall b r, rm_in m b r -> (a, TLink r b) ∈ g.
Proof.
  intros Hg. pose proof (get__spec O (Sess ∅ g None) a uids rf oc) as Hs.
  simpl in Hs. rewrite Hg in Hs.
  destruct Hs as [(_ & _ & ?)|(_ & found' & m' & Heq & Hwf & Hin & _)]; [done|].
  simplify_eq. split; [done|]. intros b r Hr. by apply Hin in Hr as [Hc _].
Qed.

Lemma w_remove_ok isW O w a uids rf oc w' e :
  w_remove isW O w a uids rf oc = (w', e) -> buf_ok w -> buf_ok w' /\ wroot w' = wroot w.
Proof.
  intros Hl Hb. unfold w_remove in Hl.
  destruct (w_get_ isW O w a uids rf oc) as [w1 r1] eqn:E1.
  pose proof (w_get__ok _ _ _ _ _ _ _ _ _ E1 Hb) as (A1 & A2 & A3).
  destruct r1 as [[us m]|e1]; [|by simplify_eq].
  destruct (A3 _ _ eq_refl) as (_ & Hg & Hae). clear A3.
  destruct m as [|m0 m]; [by simplify_eq|]. set (mm := m0 :: m) in *.
  destruct (wroot w1) as [rt|] eqn:Er; [|by simplify_eq; split; [done|congruence]].
  symmetry in Hg. apply get__links in Hg as [[Hnd Hne] Hlk].
  assert (Hpre : buf_ok (load_prelude w1 mm.*1)).
  { destruct A1 as [B1 B2 B3 B4]. constructor; [by apply load_prelude_bi|by apply (nz_ext w1)|done|].
    change (wroot (load_prelude w1 mm.*1)) with (wroot w1). rewrite Er. done. }
  assert (Hkey : forall b, b ∈ mm.*1 -> exists r, rm_in mm b r).
  { intros b. by apply rm_keys_in. }
  assert (mm <> []) as Hmm by done. clearbody mm.
  destruct (w_remove_all_ok _ _ _ _ _ _ _ _ _ Hl Hpre) as [C1 C2].
  - change (wroot (load_prelude w1 mm.*1)) with (wroot w1). rewrite Er. done.
  - intros H0. destruct (Hkey _ H0) as [r Hr]. apply Hlk in Hr.
    destruct A1 as [_ [_ N2 _] _ _]. destruct (decide (a ∈ wreg w1)); [by eapply N2|set_solver].
  - done.
  - intros x _ Hx. pose proof (missing_not_pending w1 mm.*1 (bo_inv _ A1)) as Hd.
    change (x ∉ badd (ub w1) ∪ bupd (ub w1)). clear -Hx Hd. set_solver.
  - intros Hx. change (a ∈ bdel (ub w1)).
    destruct mm as [|[b rs] mm']; [done|].
    destruct (Hkey b) as [r Hr]; [left|]. apply Hlk in Hr.
    destruct (decide (a ∈ wreg w1)) as [Har|]; [|set_solver].
    destruct (Hae Har) as [Hn|?]; [|done]. exfalso.
    apply elem_of_list_to_set, elem_of_list_filter in Hx as [[?|?] _]; done.
  - split; [done|]. rewrite C2. change (wroot (load_prelude w1 mm.*1)) with (wroot w1). congruence.
Qed.

Lemma notify_delete_user w u :
  cur w = USER -> cur (notify_delete w u) = USER /\ db (notify_delete w u) = db w /\
  eb (notify_delete w u) = eb w /\
  badd (ub (notify_delete w u)) = badd (ub w) ∖ {[u]} /\
  ((u ∈ badd (ub w) /\ bupd (ub (notify_delete w u)) = bupd (ub w) /\
    bdel (ub (notify_delete w u)) = bdel (ub w)) \/
   (u ∉ badd (ub w) /\ bupd (ub (notify_delete w u)) = bupd (ub w) ∖ {[u]} /\
    bdel (ub (notify_delete w u)) = bdel (ub w) ∪ {[u]})).
Proof.
  intros Hc. unfold notify_delete, cur_buf, set_cur_buf. rewrite Hc.
  repeat case_decide; simpl; rewrite ?Hc.
  - split; [done|]. split; [done|]. split; [done|]. split; [done|]. by left.
  - split; [done|]. split; [done|]. split; [done|]. split; [set_solver|]. right. done.
  - split; [done|]. split; [done|]. split; [done|]. split; [set_solver|]. right.
    split; [done|]. split; [set_solver|done].
Qed.

Lemma w_delete_triples_ok w u w' e :
  w_delete_triples w u = (w', e) -> buf_ok w -> wroot w <> None -> buf_ok w' /\ wroot w' = wroot w.
Proof.
  intros Hl [B1 B2 B3 B4] Hr.
  pose proof (w_delete_triples_effect _ _ _ _ Hl) as [(_ & -> & _)|(Hu & -> & Hrg & Hrt & Hg & He)]; [done|].
  unfold w_delete_triples in Hl. destruct (delete_triples (core w) u) as [s' [e'|]]; [done|].
  injection Hl as <-. set (w1 := set_core w s') in *.
  destruct (notify_delete_user w1 u B3) as (C1 & C2 & _ & C3 & C4).
  change (ub w1) with (ub w) in *.
  split; [|done]. destruct B1 as [D1 D2 D3 D4 D5 D6]. destruct B2 as [N1 N2 N3].
  constructor.
  - constructor; rewrite ?Hrg, ?He, ?C3.
    + clear -D1. set_solver.
    + destruct C4 as [(Hua & -> & _)|(_ & -> & _)].
      * clear -D2 D3 Hua. set_solver.
      * clear -D2. set_solver.
    + destruct C4 as [(_ & -> & _)|(_ & -> & _)]; clear -D3; set_solver.
    + destruct C4 as [(_ & _ & ->)|(_ & _ & ->)]; clear -D4; set_solver.
    + destruct C4 as [(_ & -> & ->)|(_ & -> & ->)]; clear -D5; set_solver.
    + destruct C4 as [(_ & -> & _)|(_ & -> & _)]; clear -D6; set_solver.
  - constructor.
    + rewrite Hrg. clear -N1. set_solver.
    + intros x q. rewrite Hg, elem_of_filter. intros [_ Hin]. by eapply N2.
    + rewrite Hrt. done.
  - done.
  - rewrite Hrt. done.
Qed.

Lemma w_delete_ok isW O w u w' e :
  w_delete isW O w u = (w', e) -> buf_ok w -> u ∈ wreg w -> buf_ok w' /\ wroot w' = wroot w.
Proof.
  intros Hl Hb Hu. unfold w_delete in Hl.
  destruct (w_get isW O w u [] (Some (o_relationship O)) None) as [w1 r1] eqn:E1.
  pose proof (w_get_ok _ _ _ _ _ _ _ _ _ E1 Hb) as (A1 & A2).
  pose proof (buf_ok_root _ _ Hb Hu) as Hr.
  assert (forall w' e, w_delete_triples w1 u = (w', e) -> buf_ok w' /\ wroot w' = wroot w) as Hdel.
  { intros w2 e2 E2. destruct (w_delete_triples_ok _ _ _ _ E2 A1) as [? ?]; [congruence|].
    split; [done|congruence]. }
  destruct r1 as [[x|[|y l]]|e1]; [by eauto|by eauto| |by simplify_eq].
  destruct (w_remove isW O w1 u [] (Some (o_relationship O)) None) as [w2 e2] eqn:E2.
  pose proof (w_remove_ok _ _ _ _ _ _ _ _ _ E2 A1) as (B1 & B2).
  destruct e2 as [e2|]; [simplify_eq; split; [done|congruence]|].
  destruct (w_delete_triples_ok _ _ _ _ Hl B1) as [? ?]; [congruence|]. split; [done|congruence].
Qed.

Lemma refresh_ok isW w us w' e :
  refresh isW w us = (w', e) -> buf_ok w -> buf_ok w' /\ wroot w' = wroot w /\ kept w w'.
Proof.
  intros Hl [B1 B2 B3 B4].
  pose proof (refresh_bi _ _ _ _ _ Hl B2) as (C1 & C2 & C3 & C4 & C5).
  split; [|done]. constructor; [auto|done|destruct C3 as (_ & -> & _); done|].
  rewrite C2. intros Hn. destruct (B4 Hn) as [Hrg He].
  unfold refresh in Hl. destruct us as [|u us]; [by simplify_eq|].
  unfold expire in Hl. unfold wload in Hl.
  change (wroot (set_expd _ _)) with (wroot w) in Hl. rewrite Hn in Hl. simplify_eq.
  change (wreg (set_expd _ _)) with (wreg w). split; [done|]. simpl. rewrite Hrg. set_solver.
Qed.

Lemma expire_ok w us : buf_ok w -> buf_ok (fst (expire w us)).
Proof.
  intros [B1 B2 B3 B4]. constructor; [by apply expire_bi|by apply (nz_ext w)|done|].
  intros Hn. destruct (B4 Hn) as [Hrg He]. unfold wreg in *. simpl. rewrite Hrg.
  split; [done|]. unfold wreg. rewrite Hrg. set_solver.
Qed.

Lemma load_iris_bi isW us w w' e :
  load_iris isW us w = (w', e) -> cur w = ENGINE -> nz w ->
  nz w' /\ (buf_inv w -> buf_inv w') /\ wroot w' = wroot w /\ kept w w' /\ wreg w ⊆ wreg w' /\
  expd w' ⊆ expd w.
Proof.
  revert w w' e; induction us as [|u us IH]; intros w w' e Hl Hc Hn; simpl in Hl.
  { simplify_eq. split; [done|]. split; [done|]. split; [done|]. split; [kd|]. done. }
  destruct (load_iri isW w u) as [w1 r1] eqn:E1.
  pose proof (load_iri_kept isW w u Hc) as Hk. rewrite E1 in Hk. simpl in Hk.
  pose proof (load_iri_bi _ _ _ _ _ E1 Hc Hn) as (A1 & A2 & A3 & A4 & A5 & _).
  destruct r1 as [x|e1].
  - destruct (IH _ _ _ Hl (kept_cur _ _ Hk Hc) A1) as (B1 & B2 & B3 & B4 & B5 & B6).
    split; [done|]. split; [auto|]. split; [congruence|]. split; [by eapply kept_trans|].
    split; [by etrans|by etrans].
  - simplify_eq. split; [done|]. split; [done|]. split; [done|]. split; [done|]. done.
Qed.

Lemma new_graph_classes u c attrs : classes (new_graph u c attrs) u <> [].
Proof.
  intros He. assert (c ∈ classes (new_graph u c attrs) u) as Hc.
  { apply elem_classes. unfold new_graph. set_solver. }
  rewrite He in Hc. by apply elem_of_nil in Hc.
Qed.

Lemma elem_new_graph u c attrs t :
  t ∈ new_graph u c attrs <->
  t = (u, TType c) \/ exists a l, (a, l) ∈ attrs /\ t = (u, TAttr a l).
Proof.
  unfold new_graph. rewrite elem_of_union, elem_of_singleton, elem_of_list_to_set.
  rewrite elem_of_list_In, in_map_iff. split.
  - intros [?|([a l] & <- & Hin)]; [by left|right]. exists a, l.
    split; [by apply elem_of_list_In|done].
  - intros [?|(a & l & Hin & ->)]; [by left|right]. exists (a, l).
    split; [done|by apply elem_of_list_In].
Qed.

(** The effect of storing a new object (uid not in the registry). *)
Lemma w_store_new isW w u ts w' e :
  w_store isW w u ts = (w', e) -> classes ts u <> [] -> cur w = USER -> u ∉ wreg w ->
  (w' = w /\ e = store_checks isW (wroot w) ts u /\ e <> None) \/
  (e = None /\ store_checks isW (wroot w) ts u = None /\
   core w' = Sess (wreg w ∪ {[u]}) (wgr w ∪ ts)
               (match wroot w with Some r => Some r | None => Some u end) /\
   cur w' = USER /\ db w' = db w /\ expd w' = expd w /\ eb w' = eb w /\
   ub w' = Bufs (badd (ub w) ∪ {[u]}) (bupd (ub w)) (bdel (ub w) ∖ {[u]})).
Proof.
  unfold w_store, cur_buf, set_cur_buf. intros Hl Hcl Hc Hu.
  destruct (classes ts u) as [|c0 cs]; [done|]. rewrite Hc in Hl.
  rewrite decide_False in Hl by done.
  destruct (store_checks isW (wroot w) ts u) as [e0|] eqn:Es; simplify_eq; [left; done|right; done].
Qed.

Lemma w_create_ok isW order w u c attrs w' e :
  w_create isW order w u c attrs = (w', e) -> buf_ok w -> u ∉ wreg w -> u ∉ expd w ->
  buf_ok w'.
Proof.
  intros Hl Hb Hu Hx. unfold w_create in Hl.
  case_decide as Hu0; [by simplify_eq|].
  destruct (w_store isW w u (new_graph u c attrs)) as [w1 e1] eqn:E1.
  destruct Hb as [B1 B2 B3 B4].
  pose proof (w_store_new _ _ _ _ _ _ E1 (new_graph_classes u c attrs) B3 Hu)
    as [(-> & -> & Hne)|(-> & Hs & Hc1 & Hcur & Hdb & Hex & _ & Hub)].
  { destruct (store_checks _ _ _ _); [|done]. by simplify_eq. }
  assert (nz w1) as N1.
  { destruct B2 as [N1 N2 N3]. constructor; unfold wreg, wgr, wroot in *; rewrite Hc1; simpl.
    - clear -N1 Hu0. set_solver.
    - intros x q. rewrite elem_of_union, elem_new_graph. intros [Hin|[?|(a & l & _ & ?)]]; [by eapply N2|done|done].
    - destruct (root (core w)) as [r|]; congruence. }
  assert (buf_inv w1) as I1.
  { destruct B1 as [D1 D2 D3 D4 D5 D6].
    constructor; rewrite ?Hub, ?Hex; simpl; unfold wreg; rewrite ?Hc1; simpl.
    - clear -D1. set_solver.
    - clear -D2. set_solver.
    - clear -D2 D3 Hu. set_solver.
    - clear -D4. set_solver.
    - clear -D5. set_solver.
    - clear -D6 Hx. set_solver. }
  assert (wroot w1 <> None) as R1.
  { unfold wroot. rewrite Hc1. simpl. by destruct (wroot w). }
  destruct (wroot w) as [r|] eqn:Er.
  { simplify_eq. constructor; done. }
  unfold in_engine in Hl. destruct (enter_engine_same w1) as (H1 & H2 & H3 & H4 & H5).
  destruct (load_iris isW order (enter_engine w1)) as [w2 e2] eqn:E2. simplify_eq.
  pose proof (load_iris_bi _ _ _ _ _ E2 H5) as (C1 & C2 & C3 & C4 & C5 & C6); [by apply (nz_ext w1)|].
  constructor.
  - apply (buf_inv_ext w2); [done..|]. apply C2. by apply (buf_inv_ext w1).
  - by apply (nz_ext w2).
  - done.
  - change (wroot (set_cur w2 _)) with (wroot w2). rewrite C3. unfold wroot. rewrite H1. done.
Qed.

Lemma w_commit_ok fail w w' e :
  w_commit fail w = (w', e) -> buf_ok w -> buf_ok w'.
Proof.
  intros Hl [B1 B2 B3 B4]. unfold w_commit, in_engine in Hl.
  destruct (enter_engine_same w) as (H1 & H2 & H3 & H4 & H5).
  set (w0 := enter_engine w) in *. clearbody w0.
  assert (nz w0) as N0 by by apply (nz_ext w).
  assert (buf_inv w0) as I0 by by apply (buf_inv_ext w).
  assert (wroot w0 = wroot w) as R0 by (unfold wroot; congruence).
  assert (Hgen : forall w2, nz w2 -> buf_inv w2 -> wroot w2 = wroot w0 ->
            (wroot w = None -> core w2 = core w0 /\ expd w2 = expd w0) -> buf_ok (set_cur w2 (cur w))).
  { intros w2 Hn Hi Hr Hr0. constructor; [by apply (buf_inv_ext w2)|by apply (nz_ext w2)|done|].
    change (wroot (set_cur w2 (cur w))) with (wroot w2). rewrite Hr, R0. intros Hnone.
    destruct (Hr0 Hnone) as [Hcc Hee]. destruct (B4 Hnone) as [Hrg He].
    unfold wreg in *. simpl. rewrite Hcc, Hee, H1, H3. done. }
  assert (Hempty : forall w2, ub w2 = no_bufs -> buf_inv w2).
  { intros w2 Hu. constructor; rewrite Hu; simpl; set_solver. }
  destruct (wroot w0) as [r|] eqn:Er.
  2: { simplify_eq. apply Hgen; done. }
  case_decide as Hr.
  2: { simplify_eq. apply Hgen; [done|done|done|]. done. }
  destruct fail as [k|].
  - destruct (decide (k < length (commit_acts r (wgr w0) (ub w0)))); simplify_eq.
    + apply Hgen; [done|done|done|]. done.
    + apply Hgen; [by apply (nz_ext w0)|by apply Hempty|done|]. done.
  - simplify_eq. unfold expire_all.
    apply Hgen; [by apply (nz_ext w0)| |done|congruence].
    apply expire_bi. by apply Hempty.
Qed.

(** The uids an operation is applied to exist; a new object has a fresh uid. *)
Definition wop_ok (w : wsess) (o : wop) : Prop :=
  match o with
  | WCreate _ u _ _ => u ∉ wreg w /\ u ∉ expd w
  | WAdd a _ bs => a ∈ wreg w /\ Forall (fun b => b ∈ wreg w) bs
  | WRemove a _ _ _ => a ∈ wreg w
  | WSetAttr u _ _ => u ∈ wreg w
  | WDelete u => u ∈ wreg w
  | WGet a _ _ _ => a ∈ wreg w
  | _ => True
  end.

Inductive whist (isW : cls -> bool) (O : onto) : wsess -> Prop :=
| wh_init d : whist isW O (w_empty d)
| wh_step w o : whist isW O w -> wop_ok w o -> whist isW O (wstep isW O w o).

Lemma whist_ok isW O w : whist isW O w -> buf_ok w.
Proof.
  induction 1 as [d|w o Hw IH Hok].
  { constructor; [constructor; set_solver|constructor; set_solver|done|done]. }
  destruct o as [order u c attrs|a r bs|a uids rf oc|u a l|u|a uids rf oc|us|us| |us|fail|d]; simpl in *.
  - destruct (w_create isW order w u c attrs) as [w' e] eqn:E.
    destruct Hok as [Hu Hx]. exact (w_create_ok _ _ _ _ _ _ _ _ E IH Hu Hx).
  - destruct (w_add isW O w a r bs) as [w' e] eqn:E. destruct Hok as [Ha Hbs].
    refine (proj1 (w_add_ok _ _ _ _ _ _ _ _ E IH (buf_ok_root _ _ IH Ha) (buf_ok_nz _ _ IH Ha) _)).
    revert Hbs. apply Forall_impl. intros b Hb. exact (buf_ok_nz _ _ IH Hb).
  - destruct (w_remove isW O w a uids rf oc) as [w' e] eqn:E.
    exact (proj1 (w_remove_ok _ _ _ _ _ _ _ _ _ E IH)).
  - destruct (w_set_attr isW w u a l) as [w' e] eqn:E.
    exact (proj1 (w_set_attr_ok _ _ _ _ _ _ _ E IH (buf_ok_root _ _ IH Hok))).
  - destruct (w_delete isW O w u) as [w' e] eqn:E.
    exact (proj1 (w_delete_ok _ _ _ _ _ _ E IH Hok)).
  - destruct (w_get isW O w a uids rf oc) as [w' e] eqn:E.
    exact (proj1 (w_get_ok _ _ _ _ _ _ _ _ _ E IH)).
  - destruct (wload isW w us) as [w' e] eqn:E. exact (proj1 (wload_ok _ _ _ _ _ E IH)).
  - exact (expire_ok w _ IH).
  - exact (expire_ok w _ IH).
  - destruct (refresh isW w us) as [w' e] eqn:E. exact (proj1 (refresh_ok _ _ _ _ _ E IH)).
  - destruct (w_commit fail w) as [w' e] eqn:E. exact (w_commit_ok _ _ _ _ E IH).
  - destruct IH as [B1 B2 B3 B4]. constructor; [by apply (buf_inv_ext w)|by apply (nz_ext w)|done|done].
Qed.
