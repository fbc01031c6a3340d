(** The server's side of a remote session (Remote.v): its session loads what it is
    asked for and answers with what its session shows, whatever type triples of
    deleted objects its graph still has. *)
From stdpp Require Import base sets list gmap countable.
From Verif Require Import Prelude Cuds CudsProofs Wrapper WrapperProofs WrapperRefine WrapperOps WrapperOps2
  WrapperCommit Buffers PropBuffers Remote.

(** ** Triples of dead objects *)
Definition addj (J : graph) (w : wsess) : wsess := set_wgr w (wgr w ∪ J).
Definition dead (J : graph) (w : wsess) : Prop :=
  forall x q, (x, q) ∈ J -> x ∉ reg (abs w) /\ exists c, q = TType c.

Lemma addj_empty w : addj ∅ w = w.
Proof.
  destruct w as [[rg g rt] cu u e x d]. unfold addj, set_wgr, set_core, set_gr, wgr. simpl.
  by rewrite (right_id_L ∅ (∪)).
Qed.

Lemma links_addj g J u :
  (forall x q, (x, q) ∈ J -> exists c, q = TType c) -> links (g ∪ J) u = links g u.
Proof.
  intros HJ. apply set_eq. intros [q v]. rewrite !elem_links, elem_of_union. split; [|by left].
  intros [H|H]; [done|]. by destruct (HJ _ _ H).
Qed.

Lemma filter_addj g (J : graph) (v : uid) :
  (forall q, (v, q) ∉ J) ->
  filter (fun t : triple => fst t <> v) (g ∪ J) = filter (fun t : triple => fst t <> v) g ∪ J.
Proof.
  intros HJ. apply set_eq. intros [x q]. rewrite elem_of_union, !elem_of_filter, elem_of_union. simpl.
  split; [tauto|]. intros [?|H]; [tauto|]. split; [|tauto]. intros ->. by apply HJ in H.
Qed.

Lemma union_addj (g J a b : graph) : (g ∪ J) ∪ a ∪ b = (g ∪ a ∪ b) ∪ J.
Proof. apply set_eq. intros t. rewrite !elem_of_union. tauto. Qed.

Lemma load_iri_addj isW J w r (u : uid) w' x :
  wroot w = Some r -> r <> 0%N -> u <> 0%N ->
  (forall x p, (x, p) ∈ db w -> x <> r /\ forall q, p <> TLink q r) ->
  ((exists p, (u, p) ∈ view r (db w)) -> forall q, (u, q) ∉ J) ->
  load_iri isW w u = (w', x) -> load_iri isW (addj J w) u = (addj J w', x).
Proof.
  intros Hr Hr0 Hu0 Hd HJ. unfold load_iri.
  change (wroot (addj J w)) with (wroot w). rewrite Hr. change (db (addj J w)) with (db w).
  destruct (decide (map_graph (sub_zero r) (triples_of (db w) (sub_root r u)) = ∅)) as [|Hne].
  { intros [= <- <-]. done. }
  cbv zeta. rewrite !sub_zero_root by done.
  assert (forall q, (u, q) ∉ J) as HuJ.
  { apply HJ. apply set_choose_L in Hne as [[y p] Hin]. apply loaded_triples in Hin as [Hin ->]; [eauto|done..]. }
  clear HJ. set (ts := map_graph _ (triples_of _ _)). set (nts := map_graph _ (neighbor_types _ _)).
  match goal with |- ?A -> ?B =>
    match B with context [set_wgr ?Y (wgr ?Y ∪ ts ∪ nts)] => set (w2' := Y) end end.
  match goal with |- ?A -> ?B =>
    match A with context [set_wgr ?Y (wgr ?Y ∪ ts ∪ nts)] => set (w2 := Y) end end.
  assert (w2' = addj J w2) as Ew2.
  { subst w2 w2'. change (wreg (set_expd (addj J w) (expd (addj J w) ∖ {[u]}))) with (wreg w).
    change (wreg (set_expd w (expd w ∖ {[u]}))) with (wreg w).
    destruct (decide (u ∈ wreg w)) as [Hin|Hin].
    - destruct w as [[rg g rt] cu ub0 eb0 e d].
      unfold addj, set_wgr, set_core, set_gr, set_expd, wgr. cbn [core gr cur ub eb expd db reg root].
      do 2 f_equal. by apply filter_addj.
    - unfold w_store. change (classes ∅ u) with (@nil cls).
      change (wreg (set_expd (addj J w) (expd (addj J w) ∖ {[u]}))) with (wreg w).
      change (wreg (set_expd w (expd w ∖ {[u]}))) with (wreg w).
      rewrite !(decide_False (P := u ∈ wreg w)) by done. destruct w as [[rg g rt] cu ub0 eb0 e d].
      unfold addj, set_wgr, set_core, set_gr, set_expd, wgr, wreg, wroot, cur_buf, set_cur_buf. cbn in *.
      destruct cu; cbn; do 2 f_equal; apply set_eq; intros t; rewrite !elem_of_union; tauto. }
  clearbody w2'. rewrite Ew2. clear w2' Ew2. clearbody w2.
  assert (set_wgr (addj J w2) (wgr (addj J w2) ∪ ts ∪ nts) = addj J (set_wgr w2 (wgr w2 ∪ ts ∪ nts))) as ->.
  { unfold addj, set_wgr, set_core, set_gr, wgr. cbn. by rewrite union_addj. }
  set (w3 := set_wgr w2 (wgr w2 ∪ ts ∪ nts)). clearbody w3.
  change (wroot (addj J w3)) with (wroot w3).
  rewrite (store_checks_ext isW (wroot w3) (wgr (addj J w3)) (wgr w3) u).
  2: { intros c. change (wgr (addj J w3)) with (wgr w3 ∪ J). rewrite elem_of_union.
       pose proof (HuJ (TType c)). tauto. }
  destruct (store_checks isW (wroot w3) (wgr w3) u); [by intros [= <- <-]|].
  assert (notify_update (addj J w3) u = (addj J (fst (notify_update w3 u)), snd (notify_update w3 u))) as ->.
  { unfold notify_update. change (cur_buf (addj J w3)) with (cur_buf w3).
    do 2 (case_decide; [done|]). cbn [fst snd]. f_equal. unfold set_cur_buf.
    change (cur (addj J w3)) with (cur w3). by destruct (cur w3). }
  destruct (notify_update w3 u) as [w4 [e|]]; cbn [fst snd]; by intros [= <- <-].
Qed.

Lemma load_next_addj isW J M us w r (u : uid) w' x :
  wroot w = Some r -> r <> 0%N -> u <> 0%N ->
  (forall x p, (x, p) ∈ db w -> x <> r /\ forall q, p <> TLink q r) ->
  (forall x q, (x, q) ∈ J -> exists c, q = TType c) ->
  (u ∈ wreg w \/ (exists p, (u, p) ∈ view r (db w)) -> forall q, (u, q) ∉ J) ->
  load_next isW M us u w = (w', x) -> load_next isW M us u (addj J w) = (addj J w', x).
Proof.
  intros Hr Hr0 Hu0 Hd Ht HJ. unfold load_next. change (wreg (addj J w)) with (wreg w).
  case_decide; [|case_decide; by intros [= <- <-]].
  unfold load_missing. change (wreg (addj J w)) with (wreg w).
  change (wgr (addj J w)) with (wgr w ∪ J). rewrite links_addj by done.
  destruct (load_iri isW w u) as [w1 y] eqn:E1.
  apply (load_iri_addj isW J w r) in E1 as E2; [|done|done|done|done|by intros ?; apply HJ; right].
  rewrite E2. destruct y as [new|e]; [|by intros [= <- <-]].
  change (wgr (addj J w1)) with (wgr w1 ∪ J).
  assert (match new with Some v => links (wgr w1 ∪ J) v | None => ∅ end =
          match new with Some v => links (wgr w1) v | None => ∅ end) as ->.
  { destruct new; [by rewrite links_addj|done]. }
  cbv zeta. change (wroot (addj J w1)) with (wroot w1).
  match goal with |- ?A -> ?B => match B with context [bool_decide (u ∈ wreg ?X)] =>
      lazymatch X with w => fail | _ => set (w2' := X) end end end.
  match goal with |- ?A -> ?B => match A with context [bool_decide (u ∈ wreg ?X)] =>
      lazymatch X with w => fail | _ => set (w2 := X) end end end.
  assert (w2' = addj J w2) as Ew2.
  { subst w2 w2'. destruct (decide (u ∈ wreg w)) as [Hin|Hin];
      [rewrite !(bool_decide_true (u ∈ wreg w)) by done|rewrite !(bool_decide_false (u ∈ wreg w)) by done; done].
    destruct (decide (Some u = wroot w1)) as [Hrt|Hrt];
      [rewrite !(bool_decide_false (Some u <> wroot w1)) by tauto; done|
       rewrite !(bool_decide_true (Some u <> wroot w1)) by done; done]. }
  clearbody w2'. rewrite Ew2. clear w2' Ew2. clearbody w2.
  change (wreg (addj J w2)) with (wreg w2).
  destruct (bool_decide (u ∈ wreg w) && bool_decide (new = None) && bool_decide (u ∈ wreg w2)) eqn:Eb;
    [|by intros [= <- <-]].
  apply andb_true_iff in Eb as [Eb E3]. apply andb_true_iff in Eb as [E4 _].
  apply bool_decide_eq_true in E3, E4.
  unfold w_delete_triples, delete_triples.
  change (reg (core (addj J w2))) with (reg (core w2)). change (reg (core w2)) with (wreg w2).
  rewrite !decide_True by done.
  intros [= <- <-]. f_equal.
  cbn [addj set_wgr set_core set_gr core gr root reg].
  change (gr (core w2)) with (wgr w2). rewrite filter_addj by (apply HJ; by left).
  unfold notify_delete, set_core, cur_buf, set_cur_buf, addj, set_wgr, wgr, set_gr. simpl.
  destruct (cur w2); simpl; do 2 (case_decide; [done|]); done.
Qed.

(** One element, in its engine context, with the engine's buffers afterwards. *)
Lemma load_elem_eb isW M us (u : uid) w r w' x :
  winv isW w r -> u <> 0%N -> u ∉ bdel (ub w) ->
  (u ∈ M -> u ∈ wreg w -> u ∉ badd (ub w) /\ u ∉ bupd (ub w)) ->
  in_engine (load_next isW M us u) w = (w', x) ->
  bdel (eb w') = ∅ /\ badd (eb w') ∪ bupd (eb w') ⊆ {[u]} /\
  (u ∉ reg (abs w) -> badd (eb w') ∪ bupd (eb w') = ∅).
Proof.
  intros Hw Hu0 Hud Hmiss. unfold in_engine.
  pose proof (wi_root _ _ _ Hw) as Hroot. pose proof (wi_cur _ _ _ Hw) as Hcur.
  pose proof (wi_r0 _ _ _ Hw) as Hr0.
  destruct (enter_engine_same w) as (H1 & H2 & H3 & H4 & H5).
  assert (eb (enter_engine w) = no_bufs) as H6.
  { unfold enter_engine. rewrite decide_False by congruence. done. }
  set (w0 := enter_engine w) in *. clearbody w0.
  assert (wroot w0 = Some r) as Hroot0 by (unfold wroot; by rewrite H1).
  assert (wreg w0 = wreg w) as Hreg0 by (unfold wreg; by rewrite H1).
  assert (wgr w0 = wgr w) as Hgr0 by (unfold wgr; by rewrite H1).
  unfold load_next. case_decide as Hm.
  2: { case_decide; intros [= <- <-]; cbn [set_cur eb]; rewrite H6; cbn; (split; [done|]); split; set_solver. }
  specialize (Hmiss Hm). unfold load_missing.
  assert (forall w1 y, load_iri isW w0 u = (w1, y) ->
    bdel (eb w1) = ∅ /\ badd (eb w1) ∪ bupd (eb w1) ⊆ {[u]} /\ cur w1 = ENGINE /\
    (y = Ok None -> w1 = w0)) as Hiri.
  { intros w1 y. unfold load_iri. rewrite Hroot0.
    destruct (decide (map_graph _ _ = ∅)).
    { intros [= <- <-]. rewrite H6, H5. cbn. split; [done|]. split; [set_solver|]. done. }
    cbv zeta. rewrite !sub_zero_root by done.
    match goal with |- ?A -> ?B =>
      match A with context [set_wgr ?X (wgr ?X ∪ _ ∪ _)] => set (w2 := X) end end.
    assert (bdel (eb w2) = ∅ /\ badd (eb w2) ∪ bupd (eb w2) ⊆ {[u]} /\ cur w2 = ENGINE) as (B1 & B2 & B3).
    { subst w2. case_decide.
      - cbn. rewrite H6, H5. cbn. split; [done|]. split; [set_solver|done].
      - unfold w_store. change (classes ∅ u) with (@nil cls). cbn. rewrite decide_False by done.
        unfold cur_buf, set_cur_buf. cbn. rewrite H5. cbn. rewrite H6. cbn. split; [set_solver|]. split; [set_solver|done]. }
    clearbody w2. set (w3 := set_wgr w2 _).
    destruct (store_checks _ _ _ _).
    { intros [= <- <-]. change (eb w3) with (eb w2). change (cur w3) with (cur w2). done. }
    unfold notify_update. assert (cur_buf w3 = eb w2) as ->.
    { unfold cur_buf. change (cur w3) with (cur w2). by rewrite B3. }
    assert (forall b, set_cur_buf w3 b = set_eb w3 b) as ->.
    { intros b. unfold set_cur_buf. change (cur w3) with (cur w2). by rewrite B3. }
    case_decide; [|case_decide]; intros [= <- <-]; cbn; (split; [done|]); (split; [|done]); set_solver. }
  destruct (load_iri isW w0 u) as [w1 y] eqn:E1. destruct (Hiri _ _ eq_refl) as (B1 & B2 & B3 & B4). clear Hiri.
  destruct (decide (u ∈ reg (abs w))) as [Hk|Hk].
  - (* known *)
    assert (exists c, (u, TType c) ∈ view r (db w)) as [c0 Hc0].
    { destruct (decide (u ∈ wreg w)) as [Hin|Hin].
      - destruct (Hmiss Hin). by eapply winv_known.
      - apply (elem_abs_reg w r) in Hk as [?|[_ [p Hp]]]; [done| |done].
        apply (winv_known isW); [done| | | |done].
        + apply (elem_abs_reg w r); [done|]. right. eauto.
        + intros Ha. by apply (wi_add _ _ _ Hw) in Ha as [? _].
        + intros Ha. by apply (wi_upd _ _ _ Hw) in Ha as [? _]. }
    assert (y <> Ok None) as Hy.
    { intros ->. unfold load_iri in E1. rewrite Hroot0 in E1.
      rewrite decide_False in E1.
      2: { intros E. assert ((u, TType c0) ∈ (∅ : graph)) as H0; [|set_solver].
           rewrite <- E. rewrite <- H4 in Hc0. apply loaded_triples; [done|rewrite H4; apply Hw|done|done]. }
      cbv zeta in E1. destruct (store_checks _ _ _ _); [done|]. by destruct (notify_update _ _) as [? []]. }
    destruct y as [new|e].
    2: { intros [= <- <-]. done. }
    rewrite (bool_decide_false (new = None)) by congruence.
    rewrite andb_false_r. simpl. intros [= <- <-].
    cbn [set_cur eb]. destruct (bool_decide (u ∈ wreg w0)); [|done].
    destruct (bool_decide (Some u <> wroot w1)); done.
  - assert (u ∉ wreg w) as Hnin.
    { intros Hin. apply Hk, (elem_abs_reg w r); [done|]. by left. }
    rewrite (load_iri_unknown isW w0 r u) in E1; [|done|done|done|rewrite H4; apply Hw|].
    2: { rewrite H4. intros p Hp. apply Hk, (elem_abs_reg w r); [done|]. right. eauto. }
    injection E1 as <- <-. rewrite Hreg0. rewrite (bool_decide_false (u ∈ wreg w)) by done. simpl.
    intros [= <- <-]. cbn [set_cur eb]. rewrite H6. cbn. split; [done|]. split; set_solver.
Qed.

Lemma dead_abs J w w' : abs w' = abs w -> dead J w -> dead J w'.
Proof. intros Ha HJ x q Hin. rewrite Ha. by apply HJ. Qed.

Lemma load_elem_addj isW J M us (u : uid) w r w' x :
  winv isW w r -> u <> 0%N -> dead J w -> u ∉ bdel (ub w) ->
  in_engine (load_next isW M us u) w = (w', x) ->
  in_engine (load_next isW M us u) (addj J w) = (addj J w', x).
Proof.
  intros Hw Hu0 HJ Hud. unfold in_engine.
  destruct (enter_engine_same w) as (H1 & H2 & H3 & H4 & H5).
  assert (enter_engine (addj J w) = addj J (enter_engine w)) as ->.
  { unfold enter_engine. change (cur (addj J w)) with (cur w). by case_decide. }
  change (cur (addj J w)) with (cur w).
  set (w0 := enter_engine w) in *. clearbody w0.
  destruct (load_next isW M us u w0) as [w1 y] eqn:E1. intros [= <- <-].
  rewrite (load_next_addj isW J M us w0 r u w1 y); [done| | |done| | | |done].
  - unfold wroot. rewrite H1. apply Hw.
  - by eapply wi_r0.
  - rewrite H4. apply Hw.
  - intros y' q Hin. by apply HJ in Hin as [_ ?].
  - unfold wreg. rewrite H1, H4. intros Hk q Hin. apply HJ in Hin as [Hin _]. apply Hin.
    apply (elem_abs_reg w r); [apply Hw|]. destruct Hk as [Hk|Hk]; [by left|by right].
Qed.

Definition eb_of (w : wsess) (us : list uid) (s : sess) : Prop :=
  bdel (eb w) = ∅ /\ forall x, x ∈ badd (eb w) \/ x ∈ bupd (eb w) -> x ∈ us /\ x ∈ reg s.

Lemma load_loop_addj isW J M us todo : forall w r w' l,
  winv isW w r -> dead J w ->
  (forall u, u ∈ todo -> u <> 0%N /\ u ∉ bdel (ub w) /\
     (u ∈ M -> u ∉ badd (ub w) /\ u ∉ bupd (ub w)) /\ (u ∉ M -> u ∈ wreg w)) ->
  load_loop isW M us todo w = (w', l) ->
  load_loop isW M us todo (addj J w) = (addj J w', l) /\ (todo <> [] -> eb_of w' todo (abs w)).
Proof.
  induction todo as [|u todo IH]; intros w r w' l Hw HJ Htodo; simpl.
  { intros [= <- <-]. done. }
  destruct (Htodo u) as (Hu0 & Hud & Hum & Hun); [by left|].
  destruct (load_elem_spec isW M us u w r) as (w1 & E1 & Hw1 & Hl1 & _ & _);
    [done|done|done|by intros; apply Hum|done|].
  rewrite E1. rewrite (load_elem_addj isW J M us u w r w1 (Ok (found w u))); [|done..].
  destruct (load_loop isW M us todo w1) as [w2 l2] eqn:E2. intros [= <- <-].
  destruct (IH w1 r w2 l2) as [E3 HE]; [done|by eapply dead_abs; [apply Hl1|]| |done|].
  { intros x Hx. destruct (Htodo x) as (H1 & H2 & H3 & H4); [by right|].
    rewrite (lr_ub _ _ Hl1). split; [done|]. split; [done|]. split; [done|].
    intros Hm. apply (lr_reg _ _ Hl1). auto. }
  rewrite E3. split; [done|]. intros _.
  destruct todo as [|u' todo].
  - simpl in E2. injection E2 as <- <-.
    destruct (load_elem_eb isW M us u w r w1 (Ok (found w u))) as (B1 & B2 & B3);
      [done|done|done|by intros; apply Hum|done|].
    split; [done|]. intros x Hx. assert (x = u) as ->.
    { assert (x ∈ ({[u]} : gset uid)) as H by (apply B2; by apply elem_of_union).
      by apply elem_of_singleton in H. }
    split; [by left|]. destruct (decide (u ∈ reg (abs w))) as [|Hn]; [done|].
    apply B3 in Hn. exfalso. assert (u ∈ (∅ : gset uid)) as H0; [|set_solver].
    rewrite <- Hn. by apply elem_of_union.
  - destruct HE as [B1 B2]; [done|]. split; [done|]. intros x Hx. apply B2 in Hx as [Hx Hr].
    split; [by right|]. by rewrite <- (lr_abs _ _ Hl1).
Qed.

Lemma wload_addj isW J w r us :
  winv isW w r -> dead J w -> (forall u, u ∈ us -> u <> 0%N /\ u ∉ bdel (ub w)) ->
  exists w', wload isW w us = (w', Ok (load (abs w) us)) /\
    wload isW (addj J w) us = (addj J w', Ok (load (abs w) us)) /\
    winv isW w' r /\ lrel w w' /\
    (forall u, u ∈ us -> u ∈ reg (abs w) -> u ∈ wreg w') /\
    (forall u, u ∈ us -> u ∉ expd w') /\ (us <> [] -> eb_of w' us (abs w)).
Proof.
  intros Hw HJ Hus. destruct (wload_spec isW w r us Hw Hus) as (w' & E & Hw' & Hl & Hin & Hx & _).
  exists w'. split; [done|].
  assert (wload isW (addj J w) us = (addj J w', Ok (load (abs w) us)) /\ (us <> [] -> eb_of w' us (abs w))) as [E1 E2].
  2: done.
  revert E. unfold wload. change (wroot (addj J w)) with (wroot w). rewrite (wi_root _ _ _ Hw).
  change (missing_uids (addj J w) us) with (missing_uids w us).
  change (load_prelude (addj J w) us) with (addj J (load_prelude w us)).
  set (w0 := load_prelude w us). intros E.
  assert (quiet w w0) as Hq.
  { repeat split; simpl; try done. set_solver. }
  pose proof (winv_quiet _ _ _ _ Hw Hq) as Hw0.
  pose proof (quiet_lrel _ _ Hq) as Hlq.
  rewrite <- (lr_abs _ _ Hlq). apply (load_loop_addj isW J _ us us w0 r w'); [done|by apply (dead_abs J w w0); [apply (lr_abs _ _ Hlq)|]| |].
  2: { by rewrite (lr_abs _ _ Hlq). }
  intros u Hu. destruct (Hus u Hu). split; [done|]. split; [done|].
  assert (u ∈ (list_to_set (missing_uids w us) : gset uid) <-> u ∉ wreg w \/ u ∈ expd w) as Hm.
  { rewrite elem_of_list_to_set. unfold missing_uids. rewrite elem_of_list_filter. tauto. }
  change (ub w0) with (ub w). change (wreg w0) with (wreg w). rewrite Hm. split.
  - intros [Hn|He].
    + split; intros Ha; [by apply (wi_add _ _ _ Hw) in Ha as [? _]|by apply (wi_upd _ _ _ Hw) in Ha as [? _]].
    + by apply (wi_exp _ _ _ Hw) in He as (_ & ? & ?).
  - intros Hn. destruct (decide (u ∈ wreg w)); [done|tauto].
Qed.

(** ** The answer *)

(** What is sent for an object is what the session shows of it. *)
Lemma entry_abs isW J w r x :
  winv isW w r -> dead J w -> x ∈ wreg w ->
  entry_of (wgr w ∪ J) x = entry_of (gr (abs w)) x.
Proof.
  intros Hw HJ Hx. pose proof (wi_root _ _ _ Hw) as Hr.
  assert (forall p, (x, p) ∈ wgr w ∪ J <-> (x, p) ∈ gr (abs w)) as Hown.
  { intros p. rewrite elem_of_union, (elem_abs w r) by done. split.
    - intros [H|H]; [by left|]. apply HJ in H as [H _]. destruct H. apply (elem_abs_reg w r); [done|]. by left.
    - intros [[_ H]|[H _]]; [by left|done]. }
  unfold entry_of. f_equal.
  - apply set_eq. intros [y p]. rewrite !elem_triples_of. simpl.
    split; intros [H ->]; (split; [|done]); by apply Hown.
  - apply set_eq. intros [y p]. rewrite !elem_nb.
    split; intros (H & [c ->] & q & Hq).
    + apply Hown in Hq. split; [|split; eauto].
      pose proof (wi_tclosed _ _ _ Hw _ _ _ Hq) as Hy.
      apply elem_of_union in H as [H|H]; [|by apply HJ in H as [? _]].
      apply (elem_abs w r); [done|]. destruct (decide (y ∈ wreg w)) as [Hi|Hi]; [by left|].
      right. apply (wi_out _ _ _ Hw) in H; [|done]. tauto.
    + apply Hown in Hq as Hq'. split; [|split; eauto]. apply elem_of_union. left.
      apply (elem_abs w r) in H as [[_ H]|(H1 & H2 & H3)]; [done| |done].
      apply (wi_ntype _ _ _ Hw x q); [done| |done|done].
      apply (elem_abs w r) in Hq as [[_ Hq]|[Hq _]]; done.
Qed.

(** The server's session p: a session as in WrapperRefine.v that nobody but the
    clients writes to, possibly with triples J of dead objects. *)
Definition srv (isW : cls -> bool) (J : graph) (p : wsess) (r : uid) (s : sess) : Prop :=
  exists p0, p = addj J p0 /\ winv isW p0 r /\ dead J p0 /\ bdel (ub p0) = ∅ /\ abs p0 = s.

(** One entry of the answer's result. *)
Definition answer (s : sess) (u : uid) : option entry :=
  if decide (u ∈ reg s) then Some (entry_of (gr s) u) else None.

Section serve.
  Context (isW : cls -> bool) (dc : uid -> cls) (order : gset uid -> list uid)
    (Hord : forall X x, x ∈ order X -> x ∈ X).

  Lemma serve_load_spec exp us J p r s :
    srv isW J p r s -> us <> [] -> (forall u, u ∈ us -> u <> 0%N) ->
    exists p' m, serve_load isW dc order exp us p = (p', Ok (m, map (answer s) us)) /\
      srv isW J p' r s /\ wreg p ⊆ wreg p' /\ ub p' = ub p /\
      (forall u, u ∈ us -> u ∈ reg s -> u ∈ wreg p') /\
      m_del m = [] /\
      (forall e, e ∈ m_add m ++ m_upd m -> exists x, x ∈ us /\ x ∈ reg s /\ e = entry_of (gr s) x) /\
      (forall u, u ∈ us -> u ∉ m_exp m).
  Proof.
    intros (p0 & -> & Hw & HJ & Hd & <-) Hne Hus. unfold serve_load.
    change (fst (expire (addj J p0) exp)) with (addj J (fst (expire p0 exp))).
    destruct (expire_spec isW p0 r exp Hw) as (Hw1 & Ha1 & Hc1 & Hu1 & Hd1).
    set (p1 := fst (expire p0 exp)) in *. clearbody p1.
    destruct (wload_addj isW J p1 r us) as (p2 & _ & E & Hw2 & Hl2 & Hin2 & Hx2 & He2);
      [done|by eapply dead_abs| |].
    { intros u Hu. split; [by apply Hus|]. rewrite Hu1, Hd. set_solver. }
    rewrite E. destruct (He2 Hne) as [B1 B2]. cbv zeta. unfold serialize_buffers.
    change (eb (addj J p2)) with (eb p2). rewrite Ha1 in *.
    assert (abs p2 = abs p0) as Ha2 by (by rewrite (lr_abs _ _ Hl2)).
    assert (dead J p2) as HJ2 by (by eapply dead_abs).
    assert (forall x, x ∈ us -> x ∈ reg (abs p0) ->
              entry_of (wgr (addj J p2)) x = entry_of (gr (abs p0)) x) as Hent.
    { intros x Hx Hr. change (wgr (addj J p2)) with (wgr p2 ∪ J). rewrite (entry_abs isW J p2 r); [|done|done|auto].
      by rewrite Ha2. }
    eexists (reset (addj J p2) ENGINE), _. split.
    { f_equal. f_equal. f_equal. unfold load. rewrite map_map. apply map_ext_in.
      intros u Hu. unfold answer. case_decide; [|done]. cbn [option_map]. f_equal. apply Hent; [|done].
      by apply elem_of_list_In. }
    split.
    { exists (set_eb p2 no_bufs). split; [done|].
      assert (quiet p2 (set_eb p2 no_bufs)) as Hq by (repeat split; done).
      split; [by eapply winv_quiet|]. assert (abs (set_eb p2 no_bufs) = abs p0) as Ha3.
      { rewrite (abs_ext p2 (set_eb p2 no_bufs)); done. }
      split; [by eapply dead_abs|]. split; [|done]. cbn [set_eb ub]. by rewrite (lr_ub _ _ Hl2), Hu1. }
    cbn [m_add m_upd m_del m_exp]. split.
    { change (wreg p0 ⊆ wreg p2). etrans; [|apply Hl2]. unfold wreg. by rewrite Hc1. }
    split; [change (ub p2 = ub p0); by rewrite (lr_ub _ _ Hl2), Hu1|].
    split; [exact Hin2|].
    split. { rewrite B1. destruct (order ∅) as [|x l] eqn:Eo; [done|].
      assert (x ∈ (∅ : gset uid)) as H0; [|set_solver]. apply Hord. rewrite Eo. by left. }
    split.
    { intros e He. apply elem_of_app in He as [He|He]; apply elem_of_list_fmap in He as (x & -> & Hx);
        apply Hord in Hx; (destruct (B2 x) as [Hu Hr]; [tauto|]); exists x; (split; [done|]); (split; [done|]);
        by apply Hent. }
    intros u Hu. change (u ∉ expd p2). by apply Hx2.
  Qed.
End serve.
