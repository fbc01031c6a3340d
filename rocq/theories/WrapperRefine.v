(** Refinement: a wrapper session together with its backend behaves like one
    in-memory session holding everything (lazy loading, expiry and buffering are
    invisible), as long as nobody else changes the backend. *)
From stdpp Require Import base sets list gmap countable.
From Verif Require Import Prelude Cuds CudsProofs Wrapper WrapperProofs.

(** The backend's triples with the zero uid read as the session's root. *)
Definition view (r : uid) (d : graph) : graph := map_graph (sub_zero r) d.
Definition subjects (g : graph) : gset uid := set_map fst g.

(** The in-memory session that a wrapper session stands for: its objects are the
    loaded ones and those known to the backend that have not been deleted; loaded
    objects have the session's triples, the others the backend's. *)
Definition abs (w : wsess) : sess :=
  match wroot w with
  | None => core w
  | Some r =>
      Sess (wreg w ∪ (subjects (view r (db w)) ∖ bdel (ub w)))
           (filter (fun t => fst t ∈ wreg w) (wgr w) ∪
            filter (fun t => fst t ∉ wreg w ∪ bdel (ub w)) (view r (db w)))
           (Some r)
  end.

Lemma elem_subjects g u : u ∈ subjects g <-> exists p, (u, p) ∈ g.
Proof.
  unfold subjects. rewrite elem_of_map. split.
  - intros ([x p] & -> & Hin). eauto.
  - intros [p Hp]. by exists (u, p).
Qed.

Lemma elem_abs w r u p :
  wroot w = Some r ->
  (u, p) ∈ gr (abs w) <->
  (u ∈ wreg w /\ (u, p) ∈ wgr w) \/
  (u ∉ wreg w /\ u ∉ bdel (ub w) /\ (u, p) ∈ view r (db w)).
Proof.
  intros Hr. unfold abs. rewrite Hr. simpl.
  rewrite elem_of_union, !elem_of_filter, not_elem_of_union. simpl. tauto.
Qed.

Lemma elem_abs_reg w r u :
  wroot w = Some r ->
  u ∈ reg (abs w) <->
  u ∈ wreg w \/ (u ∉ bdel (ub w) /\ exists p, (u, p) ∈ view r (db w)).
Proof.
  intros Hr. unfold abs. rewrite Hr. simpl.
  rewrite elem_of_union, elem_of_difference, elem_subjects. tauto.
Qed.

Lemma abs_root w r : wroot w = Some r -> root (abs w) = Some r.
Proof. intros Hr. unfold abs. by rewrite Hr. Qed.

(** Equality of sessions from equality of their parts as sets. *)
Lemma sess_eq s s' :
  (forall u, u ∈ reg s <-> u ∈ reg s') -> (forall t, t ∈ gr s <-> t ∈ gr s') ->
  root s = root s' -> s = s'.
Proof.
  destruct s as [a b c], s' as [a' b' c']; simpl. intros H1 H2 ->.
  f_equal; apply set_eq; done.
Qed.

(** The invariant. *)
Record winv (isW : cls -> bool) (w : wsess) (r : uid) : Prop := {
  wi_root : wroot w = Some r;
  wi_cur : cur w = USER;
  wi_rreg : r ∈ wreg w;
  wi_db : forall x p, (x, p) ∈ db w -> x <> r /\ forall q, p <> TLink q r;
  wi_nz : nz w;
  wi_out : forall u p, u ∉ wreg w -> (u, p) ∈ wgr w ->
             (u, p) ∈ view r (db w) /\ u ∉ bdel (ub w) /\ exists c, p = TType c;
  wi_same : forall u, u ∈ wreg w -> u ∉ buids (ub w) ->
             forall p, (u, p) ∈ wgr w <-> (u, p) ∈ view r (db w);
  wi_add : forall u, u ∈ badd (ub w) -> u ∈ wreg w /\ (u <> r -> forall p, (u, p) ∉ view r (db w));
  wi_upd : forall u, u ∈ bupd (ub w) -> u ∈ wreg w /\ exists p, (u, p) ∈ view r (db w);
  wi_del : forall u, u ∈ bdel (ub w) -> u ∉ wreg w /\ exists p, (u, p) ∈ view r (db w);
  wi_type : forall u c, u ∈ wreg w -> (u, TType c) ∈ view r (db w) -> (u, TType c) ∈ wgr w;
  wi_exp : forall u, u ∈ expd w -> u ∈ wreg w /\ u ∉ badd (ub w) /\ u ∉ bupd (ub w);
  wi_dis : forall u, u ∈ badd (ub w) -> u ∉ bupd (ub w);
  wi_ntype : forall x q v c, x ∈ wreg w -> (x, TLink q v) ∈ wgr w -> v ∉ wreg w ->
               (v, TType c) ∈ view r (db w) -> (v, TType c) ∈ wgr w;
  wi_tclosed : forall x q v, (x, TLink q v) ∈ gr (abs w) -> v ∈ reg (abs w);
  wi_typed : forall u, u ∈ reg (abs w) -> exists c, (u, TType c) ∈ gr (abs w);
  wi_wrap : forall u c, (u, TType c) ∈ gr (abs w) -> u <> r -> isW c = false
}.

Lemma wi_r0 isW w r : winv isW w r -> r <> 0%N.
Proof. intros Hw ->. by destruct (wi_nz _ _ _ Hw) as [_ _ H]; destruct H; apply (wi_root _ _ _ Hw). Qed.

Lemma abs_ext w w' :
  core w' = core w -> ub w' = ub w -> db w' = db w -> abs w' = abs w.
Proof.
  intros Hc Hu Hd. unfold abs, wroot, wreg, wgr. rewrite Hc, Hu, Hd. done.
Qed.

(** Only the expired set shrinks (and the engine's buffers change). *)
Definition quiet (w w' : wsess) : Prop :=
  core w' = core w /\ ub w' = ub w /\ db w' = db w /\ cur w' = cur w /\ expd w' ⊆ expd w.

Lemma winv_quiet isW w w' r : winv isW w r -> quiet w w' -> winv isW w' r.
Proof.
  intros Hw (Hc & Hu & Hd & Hcu & He). pose proof (abs_ext _ _ Hc Hu Hd) as Ha.
  destruct Hw. constructor; unfold wreg, wgr, wroot in *; rewrite ?Ha, ?Hc, ?Hu, ?Hd, ?Hcu; try done.
  - by apply (nz_ext w).
  - intros u Hin. apply wi_exp0. by apply He.
Qed.

(** Loading: everything the abstraction shows stays as it is. *)
Record lrel (w w' : wsess) : Prop := {
  lr_abs : abs w' = abs w;
  lr_ub : ub w' = ub w;
  lr_db : db w' = db w;
  lr_cur : cur w' = cur w;
  lr_exp : expd w' ⊆ expd w;
  lr_reg : wreg w ⊆ wreg w';
  lr_gr : forall x p, x ∈ wreg w -> (x, p) ∈ wgr w' <-> (x, p) ∈ wgr w
}.

Lemma lrel_refl w : lrel w w.
Proof. by constructor. Qed.
Lemma lrel_trans w1 w2 w3 : lrel w1 w2 -> lrel w2 w3 -> lrel w1 w3.
Proof.
  intros [A1 A2 A3 A4 A5 A6 A7] [B1 B2 B3 B4 B5 B6 B7].
  constructor; [congruence|congruence|congruence|congruence|by etrans|by etrans|].
  intros x p Hx. rewrite B7 by by apply A6. by apply A7.
Qed.
Lemma quiet_lrel w w' : quiet w w' -> lrel w w'.
Proof.
  intros (Hc & Hu & Hd & Hcu & He).
  constructor; [by apply abs_ext|done|done|done|done|unfold wreg; by rewrite Hc|].
  intros x p _. unfold wgr. by rewrite Hc.
Qed.

(** ** What the backend delivers for one uid *)
Lemma sub_zero_inj r x y : x <> r -> y <> r -> sub_zero r x = sub_zero r y -> x = y.
Proof. unfold sub_zero. repeat case_decide; congruence. Qed.

Lemma elem_view r d x p :
  (x, p) ∈ view r d <-> exists x' p', (x', p') ∈ d /\ x = sub_zero r x' /\ p = map_po (sub_zero r) p'.
Proof.
  unfold view. rewrite elem_map_graph. unfold map_triple. split.
  - intros ([x' p'] & Hin & Heq). simpl in Heq. injection Heq as -> ->. eauto 10.
  - intros (x' & p' & Hin & -> & ->). exists (x', p'). done.
Qed.

Section backend.
  Context (r : uid) (d : graph) (Hr : r <> 0%N)
          (Hd : forall x p, (x, p) ∈ d -> x <> r /\ forall q, p <> TLink q r).

  Lemma loaded_triples u x p :
    u <> 0%N ->
    (x, p) ∈ map_graph (sub_zero r) (triples_of d (sub_root r u)) <->
    (x, p) ∈ view r d /\ x = u.
  Proof.
    intros Hu. rewrite elem_map_graph, elem_view. split.
    - intros ([x' p'] & Hin & Heq). apply elem_triples_of in Hin as [Hin Hx]. simpl in Hx.
      unfold map_triple in Heq. simpl in Heq. injection Heq as -> ->.
      split; [eauto 10|]. rewrite Hx. by apply sub_zero_root.
    - intros [(x' & p' & Hin & -> & ->) Hx]. exists (x', p'). split; [|done].
      apply elem_triples_of. split; [done|]. simpl. destruct (Hd _ _ Hin) as [Hxr _].
      unfold sub_zero, sub_root in *. repeat case_decide; congruence.
  Qed.

  Lemma loaded_types u x p :
    u <> 0%N ->
    (x, p) ∈ map_graph (sub_zero r) (neighbor_types d (sub_root r u)) <->
    (x, p) ∈ view r d /\ (exists c, p = TType c) /\ exists q, (u, TLink q x) ∈ view r d.
  Proof.
    intros Hu. rewrite elem_map_graph. split.
    - intros ([x' p'] & Hin & Heq). apply elem_neighbor_types in Hin as (Hin & [c ->] & q & Hq).
      unfold map_triple in Heq. simpl in Heq. injection Heq as -> ->.
      split; [apply elem_view; eexists x', (TType c); done|]. split; [eauto|].
      exists q. apply elem_view. exists (sub_root r u), (TLink q x').
      split; [done|]. split; [by rewrite sub_zero_root|done].
    - intros (Hin & [c ->] & q & Hq).
      apply elem_view in Hin as (x' & p' & Hin & -> & Hp).
      destruct p' as [|c'|]; simplify_eq/=.
      apply elem_view in Hq as (u' & pq & Hq & -> & Hpq).
      destruct pq as [q' x''| |]; simplify_eq/=.
      destruct (Hd _ _ Hin) as [Hx'r _]. destruct (Hd _ _ Hq) as [Hu'r Hx''r].
      assert (x' = x'') as <-.
      { apply (sub_zero_inj r); [done| |done]. intros ->. by eapply Hx''r. }
      exists (x', TType c'). split; [|done]. apply elem_neighbor_types.
      split; [done|]. split; [eauto|]. exists q'.
      assert (sub_root r (sub_zero r u') = u') as ->; [|done].
      unfold sub_zero, sub_root. repeat case_decide; congruence.
  Qed.

  Lemma loaded_none u :
    u <> 0%N -> triples_of d (sub_root r u) = ∅ <-> forall p, (u, p) ∉ view r d.
  Proof.
    intros Hu. split.
    - intros He p Hp. assert ((u, p) ∈ map_graph (sub_zero r) (triples_of d (sub_root r u))) as Hin
        by by apply loaded_triples.
      rewrite He in Hin. apply elem_map_graph in Hin as (t & Ht & _). set_solver.
    - intros Hn. destruct (decide (triples_of d (sub_root r u) = ∅)) as [|Hne]; [done|].
      apply (map_graph_ne (sub_zero r)) in Hne. apply set_choose_L in Hne as [[x p] Hin].
      apply loaded_triples in Hin as [Hin ->]; [|done]. by destruct (Hn p).
  Qed.
End backend.

(** ** Loading one element *)
Lemma store_checks_ok isW rt g u :
  (exists c, (u, TType c) ∈ g) ->
  (Some u <> rt -> forall c, (u, TType c) ∈ g -> isW c = false) ->
  rt <> None -> store_checks isW rt g u = None.
Proof.
  intros [c Hc] Hw Hrt. unfold store_checks.
  destruct (is_wrapper isW g u && bool_decide (rt <> None /\ rt <> Some u)) eqn:E1.
  { apply andb_true_iff in E1 as [Ew Eb]. apply bool_decide_eq_true in Eb as [_ Hne].
    unfold is_wrapper in Ew. apply existsb_exists in Ew as (c' & Hin & Ht).
    apply elem_of_list_In, elem_classes in Hin. rewrite (Hw ltac:(congruence) c' Hin) in Ht. done. }
  rewrite (bool_decide_false (rt = None)) by done. rewrite andb_false_r.
  apply elem_classes in Hc. destruct (classes g u); [by apply elem_of_nil in Hc|done].
Qed.

Lemma notify_update_engine w u :
  cur w = ENGINE -> u ∉ bdel (eb w) ->
  exists w', notify_update w u = (w', None) /\ core w' = core w /\ ub w' = ub w /\
             expd w' = expd w /\ db w' = db w /\ cur w' = ENGINE /\
             bdel (eb w') = bdel (eb w).
Proof.
  intros Hc Hu. unfold notify_update, cur_buf, set_cur_buf. rewrite Hc.
  rewrite decide_False by done. case_decide; eexists; simpl; split_and!; done.
Qed.

(** A uid that the backend knows, in the engine context. *)
Lemma load_iri_known isW w r (u : uid) :
  wroot w = Some r -> r <> 0%N -> u <> 0%N -> cur w = ENGINE -> bdel (eb w) = ∅ ->
  (forall x p, (x, p) ∈ db w -> x <> r /\ forall q, p <> TLink q r) ->
  (exists c, (u, TType c) ∈ view r (db w)) ->
  (u <> r -> forall c, (u, TType c) ∈ wgr w \/ (u, TType c) ∈ view r (db w) -> isW c = false) ->
  exists w', load_iri isW w u = (w', Ok (Some u)) /\
    wreg w' = wreg w ∪ {[u]} /\ wroot w' = Some r /\ expd w' = expd w ∖ {[u]} /\
    ub w' = ub w /\ db w' = db w /\ cur w' = ENGINE /\ bdel (eb w') = ∅ /\
    forall x p, (x, p) ∈ wgr w' <->
      ((x, p) ∈ wgr w /\ (x <> u \/ u ∉ wreg w)) \/
      ((x, p) ∈ view r (db w) /\ x = u) \/
      ((x, p) ∈ view r (db w) /\ (exists c, p = TType c) /\ exists q, (u, TLink q x) ∈ view r (db w)).
Proof.
  intros Hr Hr0 Hu0 Hc He Hd [c0 Hc0] Hw. unfold load_iri. rewrite Hr.
  assert (map_graph (sub_zero r) (triples_of (db w) (sub_root r u)) <> ∅) as Hne.
  { intros E. assert ((u, TType c0) ∈ (∅ : graph)) as H0; [|set_solver].
    rewrite <- E. by apply loaded_triples. }
  rewrite decide_False by done. cbv zeta. rewrite !sub_zero_root by done.
  match goal with |- context [set_expd w ?e] => set (w1 := set_expd w e) end.
  match goal with |- context [set_wgr ?X (_ ∪ _)] => set (w2 := X) end.
  assert (wreg w2 = wreg w ∪ {[u]} /\ wroot w2 = Some r /\ expd w2 = expd w ∖ {[u]} /\
          ub w2 = ub w /\ db w2 = db w /\ cur w2 = ENGINE /\ bdel (eb w2) = ∅ /\
          forall t, t ∈ wgr w2 <-> t ∈ wgr w /\ (fst t <> u \/ u ∉ wreg w))
    as (Hr2 & Ht2 & He2 & Hu2 & Hd2 & Hc2 & Hb2 & Hg2).
  { subst w2. change (wreg w1) with (wreg w).
    case_decide as Hv.
    - split; [change (wreg w = wreg w ∪ {[u]}); clear -Hv; set_solver|].
      do 6 (split; [done|]). intros t. change (t ∈ filter (fun t => fst t <> u) (wgr w) <-> t ∈ wgr w /\ (fst t <> u \/ u ∉ wreg w)).
      rewrite elem_of_filter. tauto.
    - unfold w_store. change (classes ∅ u) with (@nil cls).
      change (wreg w1) with (wreg w). rewrite decide_False by done.
      unfold cur_buf, set_cur_buf. change (cur w1) with (cur w). rewrite Hc. simpl.
      split; [done|]. split; [unfold wroot; simpl; change (root (core w)) with (wroot w); by rewrite Hr|].
      split; [done|]. split; [done|]. split; [done|]. split; [done|].
      split; [rewrite He; set_solver|].
      intros t. unfold wgr. simpl. rewrite elem_of_union. change (gr (core w1)) with (gr (core w)).
      clear -Hv. set_solver. }
  clearbody w2. match goal with |- context [set_wgr w2 ?e] => set (w3 := set_wgr w2 e) end.
  assert (forall x p, (x, p) ∈ wgr w3 <->
      ((x, p) ∈ wgr w /\ (x <> u \/ u ∉ wreg w)) \/
      ((x, p) ∈ view r (db w) /\ x = u) \/
      ((x, p) ∈ view r (db w) /\ (exists c, p = TType c) /\ exists q, (u, TLink q x) ∈ view r (db w)))
    as Hg3.
  { intros x p. subst w3. unfold wgr at 1. simpl. rewrite !elem_of_union.
    change (gr (core w2)) with (wgr w2). rewrite Hg2, loaded_triples, loaded_types by done.
    simpl. tauto. }
  assert (store_checks isW (wroot w3) (wgr w3) u = None) as ->.
  { apply store_checks_ok.
    - exists c0. apply Hg3. right. left. done.
    - change (wroot w3) with (wroot w2). rewrite Ht2. intros Hne' c Hin.
      apply Hw; [congruence|]. apply Hg3 in Hin as [[? _]|[[? _]|[? _]]]; tauto.
    - change (wroot w3) with (wroot w2). congruence. }
  destruct (notify_update_engine w3 u) as (w4 & -> & C1 & C2 & C3 & C4 & C5 & C6).
  { done. } { change (eb w3) with (eb w2). rewrite Hb2. set_solver. }
  exists w4. split; [done|]. unfold wreg, wroot, wgr. rewrite C1, C2, C3, C4, C6.
  split; [done|]. split; [done|]. split; [done|]. split; [done|]. split; [done|]. split; [done|].
  split; [exact Hb2|exact Hg3].
Qed.

(** Adding what the backend says about u changes nothing visible. *)
Lemma load_step isW w w' r (u : uid) :
  winv isW w r -> u <> 0%N -> u ∉ bdel (ub w) ->
  (u ∈ wreg w -> u ∉ badd (ub w) /\ u ∉ bupd (ub w)) ->
  (exists p, (u, p) ∈ view r (db w)) ->
  wreg w' = wreg w ∪ {[u]} -> wroot w' = Some r -> expd w' ⊆ expd w ->
  ub w' = ub w -> db w' = db w -> cur w' = cur w ->
  (forall x p, (x, p) ∈ wgr w' <->
      ((x, p) ∈ wgr w /\ (x <> u \/ u ∉ wreg w)) \/
      ((x, p) ∈ view r (db w) /\ x = u) \/
      ((x, p) ∈ view r (db w) /\ (exists c, p = TType c) /\ exists q, (u, TLink q x) ∈ view r (db w))) ->
  winv isW w' r /\ lrel w w'.
Proof.
  intros Hw Hu0 Hud Hpend Hknown Hr Hrt He Hub Hdb Hcur Hg.
  pose proof (wi_root _ _ _ Hw) as Hroot.
  (* the links of u in the backend are visible links *)
  assert (u ∈ wreg w -> forall p, (u, p) ∈ wgr w <-> (u, p) ∈ view r (db w)) as Hsame.
  { intros Hin. apply (wi_same _ _ _ Hw); [done|]. unfold buids. destruct (Hpend Hin). set_solver. }
  assert (forall p, (u, p) ∈ view r (db w) -> (u, p) ∈ gr (abs w)) as Hvis.
  { intros p Hp. apply (elem_abs w r); [done|]. destruct (decide (u ∈ wreg w)) as [Hin|Hin].
    - left. split; [done|]. by apply Hsame.
    - right. done. }
  (* old objects keep their triples *)
  assert (forall x p, x ∈ wreg w -> (x, p) ∈ wgr w' <-> (x, p) ∈ wgr w) as Hold.
  { intros x p Hx. rewrite Hg. split.
    - intros [[H _]|[[H ->]|(H & [c ->] & q & Hq)]]; [done|by apply Hsame|].
      by apply (wi_type _ _ _ Hw).
    - intros H. destruct (decide (x = u)) as [->|Hne]; [|tauto].
      right. left. split; [by apply Hsame|done]. }
  assert (forall p, (u, p) ∈ wgr w' <-> (u, p) ∈ view r (db w)) as Hnew.
  { intros p. rewrite Hg. split.
    - intros [[H [Hn|Hn]]|[[H _]|[H _]]]; [done| |done|done].
      by apply (wi_out _ _ _ Hw) in H as [? _].
    - intros H. right. left. done. }
  assert (forall x p, x ∉ wreg w' -> (x, p) ∈ wgr w' ->
            (x, p) ∈ view r (db w) /\ x ∉ bdel (ub w) /\ exists c, p = TType c) as Hout.
  { intros x p Hx Hin. rewrite Hr in Hx. apply Hg in Hin as [[H _]|[[H ->]|(H & Hc & q & Hq)]].
    - apply (wi_out _ _ _ Hw); [set_solver|done].
    - set_solver.
    - split; [done|]. split; [|done].
      apply Hvis, (wi_tclosed _ _ _ Hw), (elem_abs_reg w r) in Hq; [|done].
      destruct Hq as [Hq|[Hq _]]; [set_solver|done]. }
  assert (abs w' = abs w) as Habs.
  { apply sess_eq.
    - intros x. rewrite (elem_abs_reg w' r), (elem_abs_reg w r) by done.
      rewrite Hr, Hub, Hdb, elem_of_union, elem_of_singleton.
      split; [intros [[H|H]|H]; [tauto|subst; right; done|tauto]|tauto].
    - intros [x p]. rewrite (elem_abs w' r), (elem_abs w r) by done. rewrite Hub, Hdb.
      destruct (decide (x ∈ wreg w)) as [Hx|Hx].
      + rewrite (Hold x p Hx). assert (x ∈ wreg w') by (rewrite Hr; set_solver). tauto.
      + destruct (decide (x = u)) as [->|Hne].
        * rewrite Hnew. assert (u ∈ wreg w') by (rewrite Hr; set_solver). tauto.
        * assert (x ∉ wreg w') by (rewrite Hr; set_solver). tauto.
    - rewrite (abs_root w' r), (abs_root w r) by done. done. }
  split.
  2: { constructor; [done|done|done|done|done|rewrite Hr; set_solver|done]. }
  pose proof (wi_r0 _ _ _ Hw) as Hr0.
  constructor; rewrite ?Hub, ?Hdb, ?Habs.
  - done.
  - rewrite Hcur. apply Hw.
  - rewrite Hr. pose proof (wi_rreg _ _ _ Hw). set_solver.
  - apply Hw.
  - destruct (wi_nz _ _ _ Hw) as [N1 N2 N3]. constructor.
    + rewrite Hr. set_solver.
    + intros x q Hin. apply Hg in Hin as [[H _]|[[H _]|[H _]]]; [by apply N2 in H| |];
        by apply map_graph_nz in H.
    + congruence.
  - exact Hout.
  - intros x Hx Hn p. destruct (decide (x = u)) as [->|Hne]; [apply Hnew|].
    assert (x ∈ wreg w) as Hx' by (rewrite Hr in Hx; set_solver).
    rewrite (Hold x p Hx'). by apply (wi_same _ _ _ Hw).
  - intros x Hx. destruct (wi_add _ _ _ Hw x Hx). split; [rewrite Hr; set_solver|done].
  - intros x Hx. destruct (wi_upd _ _ _ Hw x Hx). split; [rewrite Hr; set_solver|done].
  - intros x Hx. destruct (wi_del _ _ _ Hw x Hx). split; [rewrite Hr; set_solver|done].
  - intros x c Hx Hin. destruct (decide (x = u)) as [->|Hne]; [by apply Hnew|].
    assert (x ∈ wreg w) as Hx' by (rewrite Hr in Hx; set_solver).
    apply Hold; [done|]. by apply (wi_type _ _ _ Hw).
  - intros x Hx. apply He, (wi_exp _ _ _ Hw) in Hx as [? ?]. split; [rewrite Hr; set_solver|done].
  - apply Hw.
  - intros x q v c Hx Hl Hv Ht. apply Hg.
    destruct (decide (x = u)) as [->|Hne].
    + apply Hnew in Hl. right. right. split; [done|]. split; eauto.
    + assert (x ∈ wreg w) as Hx' by (rewrite Hr in Hx; set_solver).
      apply Hold in Hl; [|done]. rewrite Hr in Hv.
      left. split; [|left; set_solver]. apply (wi_ntype _ _ _ Hw x q); [done|done|set_solver|done].
  - apply Hw.
  - apply Hw.
  - apply Hw.
Qed.

Lemma winv_known isW w r u :
  winv isW w r -> u ∈ reg (abs w) -> u ∉ badd (ub w) -> u ∉ bupd (ub w) -> u ∉ bdel (ub w) ->
  exists c, (u, TType c) ∈ view r (db w).
Proof.
  intros Hw Hin Ha Hu Hd. destruct (wi_typed _ _ _ Hw u Hin) as [c Hc]. exists c.
  apply (elem_abs w r) in Hc as [[H1 H2]|(_ & _ & H)]; [|done|apply Hw].
  apply (wi_same _ _ _ Hw) in H2; [done|done|]. unfold buids. set_solver.
Qed.

Lemma load_iri_unknown isW w r (u : uid) :
  wroot w = Some r -> r <> 0%N -> u <> 0%N ->
  (forall x p, (x, p) ∈ db w -> x <> r /\ forall q, p <> TLink q r) ->
  (forall p, (u, p) ∉ view r (db w)) -> load_iri isW w u = (w, Ok None).
Proof.
  intros Hr Hr0 Hu0 Hd Hn. unfold load_iri. rewrite Hr. rewrite decide_True; [done|].
  destruct (decide (map_graph (sub_zero r) (triples_of (db w) (sub_root r u)) = ∅)) as [|Hne]; [done|].
  apply set_choose_L in Hne as [[x p] Hin]. apply loaded_triples in Hin as [Hin ->]; [|done..].
  by destruct (Hn p).
Qed.

Definition found (w : wsess) (u : uid) : option uid :=
  if decide (u ∈ reg (abs w)) then Some u else None.

(** One element of a load, in its engine context. *)
Lemma load_elem_spec isW missing us (u : uid) w r :
  winv isW w r -> u <> 0%N -> u ∉ bdel (ub w) ->
  (u ∈ missing -> u ∈ wreg w -> u ∉ badd (ub w) /\ u ∉ bupd (ub w)) ->
  (u ∉ missing -> u ∈ wreg w) ->
  exists w', in_engine (load_next isW missing us u) w = (w', Ok (found w u)) /\
             winv isW w' r /\ lrel w w' /\ (u ∈ reg (abs w) -> u ∈ wreg w') /\
             (u ∈ wreg w -> core w' = core w).
Proof.
  intros Hw Hu0 Hud Hmiss Hnmiss. unfold in_engine.
  pose proof (wi_root _ _ _ Hw) as Hroot. pose proof (wi_cur _ _ _ Hw) as Hcur.
  pose proof (wi_r0 _ _ _ Hw) as Hr0.
  destruct (enter_engine_same w) as (H1 & H2 & H3 & H4 & H5).
  assert (bdel (eb (enter_engine w)) = ∅) as H6.
  { unfold enter_engine. rewrite decide_False by congruence. done. }
  set (w0 := enter_engine w) in *. clearbody w0.
  assert (wroot w0 = Some r) as Hroot0 by (unfold wroot; by rewrite H1).
  assert (wreg w0 = wreg w) as Hreg0 by (unfold wreg; by rewrite H1).
  assert (wgr w0 = wgr w) as Hgr0 by (unfold wgr; by rewrite H1).
  unfold load_next. case_decide as Hm.
  2: { rewrite Hreg0. pose proof (Hnmiss Hm) as Hin. rewrite decide_True by done.
       assert (quiet w (set_cur w0 (cur w))) as Hq.
       { repeat split; simpl; try done. by rewrite H3. }
       exists (set_cur w0 (cur w)). split.
       { unfold found. rewrite decide_True; [done|]. apply (elem_abs_reg w r); [done|]. by left. }
       split; [by eapply winv_quiet|]. split; [by apply quiet_lrel|]. split.
       { intros _. unfold wreg. simpl. by rewrite H1. } { intros _. simpl. by rewrite H1. } }
  specialize (Hmiss Hm). unfold load_missing.
  destruct (decide (u ∈ reg (abs w))) as [Hk|Hk].
  - (* known to the abstraction *)
    assert (exists c, (u, TType c) ∈ view r (db w)) as [c0 Hc0].
    { destruct (decide (u ∈ wreg w)) as [Hin|Hin].
      - destruct (Hmiss Hin). by eapply winv_known.
      - apply (elem_abs_reg w r) in Hk as [?|[_ [p Hp]]]; [done| |done].
        apply (winv_known isW); [done| | | |done].
        + apply (elem_abs_reg w r); [done|]. right. eauto.
        + intros Ha. by apply (wi_add _ _ _ Hw) in Ha as [? _].
        + intros Ha. by apply (wi_upd _ _ _ Hw) in Ha as [? _]. }
    destruct (load_iri_known isW w0 r u) as (w1 & E1 & A1 & A2 & A3 & A4 & A5 & A6 & A7 & A8);
      [done|done|done|done|done|rewrite H4; apply Hw|rewrite H4; eauto| |].
    { intros Hne c Hc. apply (wi_wrap _ _ _ Hw u c); [|done].
      apply (elem_abs w r); [done|]. rewrite H4, Hgr0 in Hc.
      destruct (decide (u ∈ wreg w)) as [Hin|Hin].
      - left. split; [done|]. destruct Hc as [Hc|Hc]; [done|]. by apply (wi_type _ _ _ Hw).
      - right. split; [done|]. split; [done|]. destruct Hc as [Hc|Hc]; [|done].
        by apply (wi_out _ _ _ Hw) in Hc as [? _]. }
    rewrite E1. rewrite Hreg0 in *. rewrite Hgr0 in *. rewrite H3, H2, H4 in *.
    destruct (load_step isW w (set_cur w1 (cur w)) r u) as [Hw1 Hl1];
      [done|done|done|done|eauto|done|done|simpl; rewrite A3; set_solver|done|done|done|exact A8|].
    assert (u ∈ wreg w -> wgr w1 = wgr w) as Hgr1.
    { intros Hin. apply set_eq. intros [x p]. rewrite A8. split.
      - intros [[H _]|[[H ->]|(H & [c ->] & q & Hq)]]; [done| |].
        + destruct (Hmiss Hin). apply (wi_same _ _ _ Hw); [done|unfold buids; set_solver|done].
        + destruct (Hmiss Hin).
          apply (wi_same _ _ _ Hw) in Hq; [|done|unfold buids; set_solver].
          destruct (decide (x ∈ wreg w)) as [Hx|Hx]; [by apply (wi_type _ _ _ Hw)|].
          by apply (wi_ntype _ _ _ Hw u q).
      - intros H. destruct (decide (x = u)) as [->|Hne]; [|tauto].
        destruct (Hmiss Hin).
        right. left. split; [|done]. apply (wi_same _ _ _ Hw) in H; [done|done|unfold buids; set_solver]. }
    match goal with |- context [if bool_decide (u ∈ wreg w) && bool_decide (Some u <> wroot w1) then ?a else ?b] =>
      set (w2 := if bool_decide (u ∈ wreg w) && bool_decide (Some u <> wroot w1) then a else b) end.
    assert (quiet (set_cur w1 (cur w)) (set_cur w2 (cur w))) as Hq2.
    { subst w2. destruct (bool_decide (u ∈ wreg w) && bool_decide (Some u <> wroot w1)) eqn:E2.
      - apply andb_true_iff in E2 as [E2 _]. apply bool_decide_eq_true in E2.
        rewrite (Hgr1 E2). unfold expire. simpl. repeat split; simpl; try done.
        intros x Hx. apply elem_of_intersection in Hx as [Hx _].
        apply elem_of_union in Hx as [Hx|Hx]; [done|]. exfalso.
        apply elem_of_difference in Hx as [Hx _]. apply elem_of_difference in Hx as [Hx _].
        apply elem_of_map in Hx as (y & _ & Hy). clear -Hy. set_solver.
      - repeat split; done. }
    clearbody w2.
    rewrite (bool_decide_false (Some u = None)) by done. rewrite andb_false_r. simpl.
    exists (set_cur w2 (cur w)). split.
    { unfold found. by rewrite decide_True. }
    split; [by eapply winv_quiet|]. split; [eapply lrel_trans; [exact Hl1|by apply quiet_lrel]|].
    destruct Hq2 as (Q1 & _). split.
    + intros _. unfold wreg. rewrite Q1. change (u ∈ wreg w1). rewrite A1. set_solver.
    + intros Hin. rewrite Q1. simpl. apply sess_eq.
      * intros x. change (x ∈ wreg w1 <-> x ∈ wreg w). rewrite A1. set_solver.
      * intros t. change (t ∈ wgr w1 <-> t ∈ wgr w). by rewrite Hgr1.
      * change (wroot w1 = wroot w). by rewrite A2.
  - (* unknown *)
    assert (u ∉ wreg w) as Hnin.
    { intros Hin. apply Hk, (elem_abs_reg w r); [done|]. by left. }
    rewrite (load_iri_unknown isW w0 r u); [|done|done|done|rewrite H4; apply Hw|].
    2: { rewrite H4. intros p Hp. apply Hk, (elem_abs_reg w r); [done|]. right. eauto. }
    rewrite Hreg0. rewrite (bool_decide_false (u ∈ wreg w)) by done. simpl.
    assert (quiet w (set_cur w0 (cur w))) as Hq.
    { repeat split; simpl; try done. by rewrite H3. }
    exists (set_cur w0 (cur w)). split. { unfold found. by rewrite decide_False. }
    split; [by eapply winv_quiet|]. split; [by apply quiet_lrel|]. split; done.
Qed.

Lemma found_ext w w' u : abs w' = abs w -> found w' u = found w u.
Proof. intros H. unfold found. by rewrite H. Qed.

Lemma load_loop_spec isW missing us todo w r :
  winv isW w r ->
  (forall u, u ∈ todo -> u <> 0%N /\ u ∉ bdel (ub w) /\
     (u ∈ missing -> u ∉ badd (ub w) /\ u ∉ bupd (ub w)) /\ (u ∉ missing -> u ∈ wreg w)) ->
  exists w', load_loop isW missing us todo w = (w', Ok (map (found w) todo)) /\
    winv isW w' r /\ lrel w w' /\
    (forall u, u ∈ todo -> u ∈ reg (abs w) -> u ∈ wreg w') /\
    ((forall u, u ∈ todo -> u ∈ wreg w) -> core w' = core w).
Proof.
  revert w. induction todo as [|u todo IH]; intros w Hw Htodo; simpl.
  { exists w. split; [done|]. split; [done|]. split; [apply lrel_refl|]. split; [|done].
    intros u Hu. by apply elem_of_nil in Hu. }
  destruct (Htodo u) as (Hu0 & Hud & Hum & Hun); [by left|].
  destruct (load_elem_spec isW missing us u w r) as (w1 & E1 & Hw1 & Hl1 & Hin1 & Hc1);
    [done|done|done|by intros; apply Hum|done|].
  rewrite E1.
  destruct (IH w1) as (w2 & E2 & Hw2 & Hl2 & Hin2 & Hc2); [done| |].
  { intros x Hx. destruct (Htodo x) as (H1 & H2 & H3 & H4); [by right|].
    rewrite (lr_ub _ _ Hl1). split; [done|]. split; [done|]. split; [done|].
    intros Hm. apply (lr_reg _ _ Hl1). auto. }
  rewrite E2. exists w2. split.
  { f_equal. simpl. f_equal. f_equal. apply map_ext. intros x. apply found_ext. apply Hl1. }
  split; [done|]. split; [by eapply lrel_trans|]. split.
  - intros x Hx Hin. apply elem_of_cons in Hx as [->|Hx].
    + apply (lr_reg _ _ Hl2). auto.
    + apply Hin2; [done|]. by rewrite (lr_abs _ _ Hl1).
  - intros Hall. rewrite Hc2, Hc1; [done|apply Hall; by left|].
    intros x Hx. apply (lr_reg _ _ Hl1). apply Hall. by right.
Qed.

(** load() gives what the abstract session gives. *)
Lemma wload_spec isW w r us :
  winv isW w r -> (forall u, u ∈ us -> u <> 0%N /\ u ∉ bdel (ub w)) ->
  exists w', wload isW w us = (w', Ok (load (abs w) us)) /\
    winv isW w' r /\ lrel w w' /\
    (forall u, u ∈ us -> u ∈ reg (abs w) -> u ∈ wreg w') /\
    (forall u, u ∈ us -> u ∉ expd w') /\
    ((forall u, u ∈ us -> u ∈ wreg w) -> core w' = core w).
Proof.
  intros Hw Hus. unfold wload. rewrite (wi_root _ _ _ Hw).
  set (w0 := load_prelude w us).
  assert (quiet w w0) as Hq.
  { repeat split; simpl; try done. set_solver. }
  assert (winv isW w0 r) as Hw0 by by eapply winv_quiet.
  destruct (load_loop_spec isW (list_to_set (missing_uids w us)) us us w0 r)
    as (w1 & E1 & Hw1 & Hl1 & Hin1 & Hc1); [done| |].
  { intros u Hu. destruct (Hus u Hu). split; [done|]. split; [done|].
    assert (u ∈ (list_to_set (missing_uids w us) : gset uid) <-> u ∉ wreg w \/ u ∈ expd w) as Hm.
    { rewrite elem_of_list_to_set. unfold missing_uids. rewrite elem_of_list_filter. tauto. }
    change (ub w0) with (ub w). change (wreg w0) with (wreg w). rewrite Hm. split.
    - intros [Hn|He].
      + split; intros Ha; [by apply (wi_add _ _ _ Hw) in Ha as [? _]|by apply (wi_upd _ _ _ Hw) in Ha as [? _]].
      + by apply (wi_exp _ _ _ Hw) in He as (_ & ? & ?).
    - intros Hn. destruct (decide (u ∈ wreg w)); [done|tauto]. }
  pose proof (quiet_lrel _ _ Hq) as Hlq.
  assert (abs w0 = abs w) as Ha0 by apply Hlq.
  exists w1. split. { rewrite E1. unfold load, found. by rewrite Ha0. }
  split; [done|]. split; [by eapply lrel_trans|]. split; [by rewrite <- Ha0|]. split.
  - intros u Hu He. apply (lr_exp _ _ Hl1) in He. revert He. subst w0. simpl. set_solver.
  - intros Hall. by rewrite Hc1.
Qed.

(** Reading an object that the session has loaded. *)
Lemma notify_read_spec isW w r u :
  winv isW w r -> u ∈ wreg w ->
  exists w', notify_read isW w u = (w', None) /\ quiet w w' /\ u ∉ expd w'.
Proof.
  intros Hw Hu. unfold notify_read. case_decide as He.
  2: { exists w. split; [done|]. split; [|done]. repeat split; done. }
  destruct (wi_exp _ _ _ Hw u He) as (_ & Ha & Hup).
  assert (u ∉ bdel (ub w)) as Hd. { intros Hd. by apply (wi_del _ _ _ Hw) in Hd as [? _]. }
  assert (u <> 0%N) as Hu0. { intros ->. by apply (nz_reg _ (wi_nz _ _ _ Hw)). }
  unfold refresh, expire. simpl.
  match goal with |- context [wload isW ?X _] => set (w0 := X) end.
  assert (quiet w w0) as Hq.
  { repeat split; simpl; try done. intros x Hx.
    apply elem_of_intersection in Hx as [Hx _]. apply elem_of_union in Hx as [?|Hx]; [done|].
    assert (x = u) as -> by (clear -Hx; set_solver). done. }
  assert (winv isW w0 r) as Hw0 by by eapply winv_quiet.
  match goal with |- context [wload isW w0 (elements ?X)] => assert (X = {[u]}) as -> end.
  { apply set_eq. intros x. unfold buids.
    rewrite elem_of_intersection, elem_of_difference, !elem_of_union, elem_of_singleton,
      elem_of_empty. split; [tauto|]. intros ->. tauto. }
  rewrite elements_singleton.
  destruct (wload_spec isW w0 r [u]) as (w1 & E1 & Hw1 & Hl1 & _ & Hx & Hc); [done| |].
  { intros x Hx. apply elem_of_list_singleton in Hx as ->. done. }
  rewrite E1. exists w1. split; [done|]. split; [|by apply Hx; left].
  destruct Hq as (Q1 & Q2 & Q3 & Q4 & Q5). repeat split.
  - rewrite Hc; [done|]. intros x Hx'. apply elem_of_list_singleton in Hx' as ->. done.
  - by rewrite (lr_ub _ _ Hl1).
  - by rewrite (lr_db _ _ Hl1).
  - by rewrite (lr_cur _ _ Hl1).
  - etrans; [apply Hl1|done].
Qed.

(** ** Writing *)
Definition mark (u : uid) (b : bufs) : bufs :=
  if decide (u ∈ badd b) then b else Bufs (badd b) (bupd b ∪ {[u]}) (bdel b).

(** A write to object u: keeps the triples of u that satisfy [keep], adds those
    that satisfy [new]. *)
Definition writes (f : sess -> sess) (u : uid) (keep new : po -> Prop) : Prop :=
  forall s, reg (f s) = reg s /\ root (f s) = root s /\
    forall x p, (x, p) ∈ gr (f s) <->
      (x <> u /\ (x, p) ∈ gr s) \/ (x = u /\ (((x, p) ∈ gr s /\ keep p) \/ new p)).

Lemma w_write_spec isW f w r u keep new :
  winv isW w r -> u ∈ wreg w -> writes f u keep new ->
  (forall c, keep (TType c)) -> (forall c, ~ new (TType c)) ->
  (forall q v, new (TLink q v) -> v ∈ wreg w) ->
  exists w', w_write isW f w u = (w', None) /\ winv isW w' r /\ abs w' = f (abs w) /\
    core w' = f (core w) /\ db w' = db w /\ ub w' = mark u (ub w) /\
    expd w' ⊆ expd w /\ u ∉ expd w'.
Proof.
  intros Hw Hu Hf Hkt Hnt Hnl. unfold w_write.
  destruct (notify_read_spec isW w r u Hw Hu) as (w1 & -> & Hq & Hex).
  pose proof (winv_quiet _ _ _ _ Hw Hq) as Hw1.
  destruct Hq as (Q1 & Q2 & Q3 & Q4 & Q5).
  assert (wreg w1 = wreg w) as Hreg1 by (unfold wreg; by rewrite Q1).
  assert (abs w1 = abs w) as Ha1 by by apply abs_ext.
  rewrite Hreg1, decide_True by done.
  rewrite <- Hreg1 in Hu, Hnl. rewrite <- Ha1, <- Q1, <- Q2, <- Q3.
  assert (u ∉ bdel (ub w1)) as Hd. { intros Hd. by apply (wi_del _ _ _ Hw1) in Hd as [? _]. }
  pose proof (wi_root _ _ _ Hw1) as Hrt. pose proof (wi_cur _ _ _ Hw1) as Hc1.
  set (w2 := set_core w1 (f (core w1))).
  exists (set_ub w2 (mark u (ub w1))).
  assert (u ∈ reg (abs w1)) as Hur by (apply (elem_abs_reg w1 r); [done|by left]).
  clear Ha1 Hreg1 Q1 Q2 Q3 Q4 Hw.
  split.
  { unfold notify_update, cur_buf, set_cur_buf. change (cur w2) with (cur w1). rewrite Hc1.
    change (ub w2) with (ub w1). rewrite (decide_False (P := u ∈ bdel (ub w1))) by done. unfold mark.
    destruct (decide (u ∈ badd (ub w1))) as [Hin|Hin].
    - rewrite decide_True by set_solver. done.
    - case_decide as Hau; [|done].
      assert (bupd (ub w1) ∪ {[u]} = bupd (ub w1)) as -> by set_solver.
      destruct w1 as [? ? [? ? ?] ? ? ?]. done. }
  destruct (Hf (core w1)) as (F1 & F2 & F3).
  assert (abs (set_ub w2 (mark u (ub w1))) = f (abs w1)) as Ha.
  { destruct (Hf (abs w1)) as (G1 & G2 & G3).
    assert (wroot (set_ub w2 (mark u (ub w1))) = Some r) as Hrt2.
    { change (root (f (core w1)) = Some r). by rewrite F2. }
    assert (bdel (mark u (ub w1)) = bdel (ub w1)) as Hbd.
    { unfold mark. by case_decide. }
    assert (wreg (set_ub w2 (mark u (ub w1))) = wreg w1) as Hr2 by exact F1.
    apply sess_eq.
    - intros x. rewrite (elem_abs_reg _ r), G1, (elem_abs_reg w1 r) by done.
      rewrite Hr2. simpl. by rewrite Hbd.
    - intros [x p]. rewrite (elem_abs _ r), G3, !(elem_abs w1 r) by done.
      rewrite Hr2. simpl. rewrite Hbd.
      change (wgr (set_ub w2 (mark u (ub w1)))) with (gr (f (core w1))). rewrite F3.
      change (gr (core w1)) with (wgr w1).
      destruct (decide (x = u)) as [->|Hne]; tauto.
    - rewrite (abs_root _ r), G2, (abs_root w1 r); done. }
  split.
  2: { split; [done|]. split; [done|]. split; [done|]. split; [done|]. split; done. }
  destruct (Hf (abs w1)) as (G1 & G2 & G3).
  assert (forall x, x ∈ badd (mark u (ub w1)) <-> x ∈ badd (ub w1)) as M1.
  { intros x. unfold mark. by case_decide. }
  assert (forall x, x ∈ bupd (mark u (ub w1)) <-> x ∈ bupd (ub w1) \/ (x = u /\ u ∉ badd (ub w1))) as M2.
  { intros x. unfold mark. case_decide; simpl; [tauto|]. rewrite elem_of_union, elem_of_singleton. tauto. }
  assert (bdel (mark u (ub w1)) = bdel (ub w1)) as M3.
  { unfold mark. by case_decide. }
  constructor; rewrite ?Ha;
    change (wreg (set_ub w2 (mark u (ub w1)))) with (reg (f (core w1)));
    change (wgr (set_ub w2 (mark u (ub w1)))) with (gr (f (core w1)));
    change (db (set_ub w2 (mark u (ub w1)))) with (db w1);
    change (ub (set_ub w2 (mark u (ub w1)))) with (mark u (ub w1));
    change (expd (set_ub w2 (mark u (ub w1)))) with (expd w1);
    rewrite ?F1, ?M3; change (reg (core w1)) with (wreg w1).
  - change (root (f (core w1)) = Some r). by rewrite F2.
  - done.
  - apply Hw1.
  - apply Hw1.
  - destruct (wi_nz _ _ _ Hw1) as [N1 N2 N3]. constructor.
    + change (0%N ∉ reg (f (core w1))). rewrite F1. done.
    + intros x q. change ((x, TLink q 0%N) ∉ gr (f (core w1))). rewrite F3.
      intros [[_ H]|[_ [[H _]|H]]]; [by apply N2 in H|by apply N2 in H|by apply Hnl in H].
    + change (root (f (core w1)) <> Some 0%N). by rewrite F2.
  - intros x p Hx. rewrite F3. intros [[_ H]|[-> _]]; [|done]. by apply (wi_out _ _ _ Hw1).
  - intros x Hx Hb p. assert (x <> u /\ x ∉ buids (ub w1)) as [Hne Hb'].
    { revert Hb. unfold buids. rewrite !not_elem_of_union, M1, M2, M3. intros ((B1 & B2) & B3).
      split; [|tauto]. intros ->. tauto. }
    rewrite F3. rewrite <- (wi_same _ _ _ Hw1 x Hx Hb' p). unfold wgr. tauto.
  - intros x. rewrite M1. apply (wi_add _ _ _ Hw1).
  - intros x. rewrite M2. intros [H|[-> H]]; [by apply (wi_upd _ _ _ Hw1)|]. split; [done|].
    destruct (decide (u ∈ bupd (ub w1))) as [Hb|Hb]; [by apply (wi_upd _ _ _ Hw1)|].
    destruct (winv_known isW w1 r u) as [c Hc]; [done..|eauto].
  - intros x Hx. by apply (wi_del _ _ _ Hw1).
  - intros x c Hx Hin. apply (wi_type _ _ _ Hw1) in Hin; [|done]. apply F3.
    destruct (decide (x = u)) as [->|Hne]; [|tauto]. right. split; [done|]. left. split; [done|apply Hkt].
  - intros x Hx. rewrite M1, M2. apply (wi_exp _ _ _ Hw1) in Hx as Hx'. destruct Hx' as (? & ? & ?).
    split; [done|]. split; [done|]. intros [?|[-> _]]; done.
  - intros x. rewrite M1, M2. intros Ha' [Hb|[-> Hb]]; [|done]. by apply (wi_dis _ _ _ Hw1) in Ha'.
  - intros x q v c Hx Hl Hv Ht. apply F3. apply F3 in Hl.
    assert (v <> u) as Hvu by congruence. left. split; [done|].
    destruct Hl as [[_ Hl]|[-> [[Hl _]|Hl]]].
    + by apply (wi_ntype _ _ _ Hw1 x q).
    + by apply (wi_ntype _ _ _ Hw1 u q).
    + by apply Hnl in Hl.
  - intros x q v Hl. rewrite G1. apply G3 in Hl as [[_ Hl]|[-> [[Hl _]|Hl]]].
    + by apply (wi_tclosed _ _ _ Hw1 x q).
    + by apply (wi_tclosed _ _ _ Hw1 u q).
    + apply (elem_abs_reg w1 r); [done|]. left. by eapply Hnl.
  - intros x Hx. rewrite G1 in Hx. destruct (wi_typed _ _ _ Hw1 x Hx) as [c Hc].
    exists c. apply G3. destruct (decide (x = u)) as [->|Hne]; [|tauto].
    right. split; [done|]. left. split; [done|apply Hkt].
  - intros x c Hc Hne. apply (wi_wrap _ _ _ Hw1 x c); [|done].
    apply G3 in Hc as [[_ Hc]|[-> [[Hc _]|Hc]]]; [done|done|by apply Hnt in Hc].
Qed.
