(** Connecting a remote session: the first object created in a client starts the
    session of the server. *)
From stdpp Require Import base sets list gmap countable.
From Verif Require Import Prelude Cuds CudsProofs Wrapper WrapperProofs WrapperRefine WrapperOps WrapperOps2
  WrapperCommit Buffers PropBuffers Remote RemoteServer RemoteClient RemoteOps RemoteOps2 RemoteCommit.

(** The engine's buffers while the first level is loaded. *)
Record ebuf (r : uid) (w : wsess) : Prop := {
  ef_add : badd (eb w) = wreg w ∖ {[r]};
  ef_upd : bupd (eb w) ⊆ {[r]};
  ef_del : bdel (eb w) = ∅ }.

Lemma load_iri_ebuf isW w r (u : uid) w' y :
  cur w = ENGINE -> wroot w = Some r -> r <> 0%N -> u <> 0%N -> r ∈ wreg w -> ebuf r w ->
  load_iri isW w u = (w', Ok y) ->
  ebuf r w' /\ (r ∈ bupd (eb w) -> r ∈ bupd (eb w')) /\ (y = Some r -> r ∈ bupd (eb w')).
Proof.
  intros Hc Hr Hr0 Hu0 Hrr [B1 B2 B3]. unfold load_iri. rewrite Hr.
  destruct (decide (map_graph _ _ = ∅)).
  { intros [= <- <-]. split; [done|]. split; [done|]. done. }
  cbv zeta. rewrite !sub_zero_root by done.
  match goal with |- ?A -> ?B =>
    match A with context [set_wgr ?X (wgr ?X ∪ _ ∪ _)] => set (w2 := X) end end.
  assert (cur w2 = ENGINE /\ ebuf r w2 /\ bupd (eb w2) = bupd (eb w) /\ u ∈ wreg w2) as (K2 & F2 & U2 & R2).
  { subst w2. change (wreg (set_expd w (expd w ∖ {[u]}))) with (wreg w). case_decide as Hu.
    - split; [done|]. split; [by constructor|]. done.
    - unfold w_store. change (classes ∅ u) with (@nil cls).
      change (wreg (set_expd w (expd w ∖ {[u]}))) with (wreg w). rewrite decide_False by done.
      unfold cur_buf, set_cur_buf. change (cur (set_expd w (expd w ∖ {[u]}))) with (cur w). rewrite Hc.
      cbn. split; [done|]. split; [|split; [done|]].
      + constructor; cbn.
        * change (badd (eb w) ∪ {[u]} = (wreg w ∪ {[u]}) ∖ {[r]}). rewrite B1. apply set_eq. intros x.
          assert (u <> r) by congruence. clear -H. set_solver.
        * done.
        * rewrite B3. clear. set_solver.
      + change (u ∈ wreg w ∪ {[u]}). clear. set_solver. }
  clearbody w2. set (w3 := set_wgr w2 _).
  assert (cur w3 = ENGINE /\ eb w3 = eb w2 /\ wreg w3 = wreg w2) as (K3 & E3 & R3) by done. clearbody w3.
  destruct (store_checks _ _ _ _); [done|]. unfold notify_update, cur_buf. rewrite K3, E3.
  destruct F2 as [A1 A2 A3]. rewrite A3. rewrite decide_False by apply not_elem_of_empty.
  case_decide as Hin; intros [= <- <-].
  - split; [constructor; rewrite ?E3, ?R3; done|]. rewrite E3, U2. split; [done|]. intros [= ->].
    rewrite A1, U2 in Hin. clear -Hin. set_solver.
  - assert (u = r) as ->.
    { destruct (decide (u = r)) as [->|Hne]; [done|]. destruct Hin. apply elem_of_union. left. rewrite A1.
      apply elem_of_difference. split; [done|]. by rewrite elem_of_singleton. }
    unfold set_cur_buf. rewrite K3. cbn. split.
    + constructor; cbn [eb badd bupd bdel set_eb].
      * change (badd (eb w2) = wreg w3 ∖ {[r]}). by rewrite R3.
      * change (bupd (eb w2) ∪ {[r]} ⊆ {[r]}). clear -A2. set_solver.
      * done.
    + rewrite U2. split; intros _; clear; set_solver.
Qed.

Lemma load_iris_ebuf isW r : forall us w w',
  cur w = ENGINE -> wroot w = Some r -> r <> 0%N -> (forall u : uid, u ∈ us -> u <> 0%N) -> r ∈ wreg w -> ebuf r w ->
  no_uid r (db w) -> (forall u p, (u, p) ∈ view r (db w) -> exists c, (u, TType c) ∈ view r (db w)) ->
  load_iris isW us w = (w', None) ->
  ebuf r w' /\ (r ∈ us -> (exists p, (r, p) ∈ view r (db w)) -> r ∈ bupd (eb w')) /\
  (r ∈ bupd (eb w) -> r ∈ bupd (eb w')).
Proof.
  induction us as [|u us IH]; intros w w' Hc Hr Hr0 Hus Hrr Hf Hno Hty E; simpl in E.
  { injection E as <-. split; [done|]. split; [|done]. intros H. by apply elem_of_nil in H. }
  destruct (load_iri isW w u) as [w1 [y|e]] eqn:E1; [|done].
  assert (u <> 0%N) as Hu0 by (apply Hus; left).
  destruct (load_iri_ebuf isW w r u w1 y Hc Hr Hr0 Hu0 Hrr Hf E1) as (Hf1 & HU & HY).
  assert (cur w1 = ENGINE /\ wroot w1 = Some r /\ r ∈ wreg w1 /\ db w1 = db w /\
    (u = r -> (exists p, (r, p) ∈ view r (db w)) -> y = Some r)) as (C1 & C2 & C3 & C4 & C5).
  { revert E1. unfold load_iri. rewrite Hr. destruct (decide (map_graph _ _ = ∅)) as [He|He].
    { intros [= <- <-]. do 4 (split; [done|]). intros -> [p Hp]. exfalso.
      apply elem_view_inv in Hp as (_ & Hnz & Hin); [|done|done].
      assert ((sub_zero r (sub_root r r), map_po (sub_zero r) (map_po (sub_root r) p)) ∈
        map_graph (sub_zero r) (triples_of (db w) (sub_root r r))) as H; [|rewrite He in H; by apply not_elem_of_empty in H].
      apply elem_map_graph. exists (sub_root r r, map_po (sub_root r) p). split; [|done].
      apply elem_triples_of. done. }
    cbv zeta. rewrite !sub_zero_root by done.
    match goal with |- ?A -> ?B =>
      match A with context [set_wgr ?X (wgr ?X ∪ _ ∪ _)] => set (w2 := X) end end.
    assert (cur w2 = ENGINE /\ wroot w2 = Some r /\ r ∈ wreg w2 /\ db w2 = db w) as (D1 & D2 & D3 & D4).
    { subst w2. change (wreg (set_expd w (expd w ∖ {[u]}))) with (wreg w). case_decide; [done|].
      unfold w_store. change (classes ∅ u) with (@nil cls).
      change (wreg (set_expd w (expd w ∖ {[u]}))) with (wreg w). rewrite decide_False by done.
      unfold cur_buf, set_cur_buf. change (cur (set_expd w (expd w ∖ {[u]}))) with (cur w). rewrite Hc.
      change (wroot (set_expd w (expd w ∖ {[u]}))) with (wroot w). rewrite Hr. cbn.
      split; [done|]. split; [done|]. split; [|done]. change (r ∈ wreg w ∪ {[u]}). apply elem_of_union. by left. }
    clearbody w2. set (w3 := set_wgr w2 _).
    assert (cur w3 = ENGINE /\ wroot w3 = Some r /\ r ∈ wreg w3 /\ db w3 = db w) as (G1 & G2 & G3 & G4) by done. clearbody w3.
    destruct (store_checks _ _ _ _); [done|]. unfold notify_update, cur_buf. rewrite G1.
    case_decide; [done|]. case_decide; intros [= <- <-].
    - do 4 (split; [done|]). intros -> _. done.
    - unfold set_cur_buf. rewrite G1. cbn. do 4 (split; [done|]). intros -> _. done. }
  destruct (IH w1 w') as (I1 & I2 & I3); try done; try (by rewrite C4).
  { intros x Hx. apply Hus. by right. }
  split; [done|]. split.
  - intros Hin Hp. apply elem_of_cons in Hin as [<-|Hin]; [apply I3, HY, C5; done|]. apply I2; [done|]. by rewrite C4.
  - intros H. by apply I3, HU.
Qed.

Section init.
  Context (isW : cls -> bool) (dc : uid -> cls) (order : gset uid -> list uid)
    (Hperm : forall X, order X ≡ₚ elements X).
  Context (d : graph) (r : uid) (c : cls) (attrs : list (attr * lit)).
  Context (Hr : r <> 0%N) (Hd : no_uid r d) (Hg : good_db isW d) (HW : isW c = true).
  Let V := view r d.
  Let NG := new_graph r c attrs.

  Local Lemma NGo u p : (u, p) ∈ NG -> u = r /\ (p = TType c \/ exists a l, p = TAttr a l).
  Proof. intros H. apply elem_new_graph in H. naive_solver. Qed.

  Local Lemma entry_NG : entry_of NG r = Entry r NG ∅.
  Proof.
    unfold entry_of. f_equal.
    - apply set_eq. intros [x p]. rewrite elem_triples_of. simpl. split; [tauto|].
      intros H. split; [done|]. by apply NGo in H as [? _].
    - apply set_eq. intros [x p]. rewrite elem_nb. split; [|intros H; by apply not_elem_of_empty in H].
      intros H. exfalso. destruct H as (_ & _ & q & H). apply NGo in H as [_ [H|(? & ? & H)]]; done.
  Qed.

  Lemma serve_init_spec first :
    (forall u, u ∈ first <-> u ∈ first_level r d) ->
    exists p m p4, serialize_buffers dc (order (badd (eb p))) (order (bupd (eb p))) (order (bdel (eb p))) p ENGINE = (p4, m) /\
      serve_init isW dc order first (entry_of NG r) d = (p4, Ok m) /\
      winv isW p r /\ gr (abs p) = V ∪ NG /\ reg (abs p) = {[r]} ∪ subjects V /\
      db p = d /\ ub p = Bufs {[r]} ∅ ∅ /\ expd p = ∅ /\ root_kept r p /\
      badd (eb p) = wreg p ∖ {[r]} /\ bupd (eb p) ⊆ {[r]} /\ bdel (eb p) = ∅ /\
      ((exists x, (r, x) ∈ V) -> r ∈ bupd (eb p)).
  Proof.
    intros Hfirst. unfold serve_init. rewrite entry_NG. cbn [e_uid e_own e_nb].
    unfold w_store. change (classes ∅ r) with (@nil cls). rewrite decide_False by set_solver.
    match goal with |- context [in_engine _ (fst (?X, _))] => set (w1 := X) end. cbn [fst].
    unfold in_engine. change (enter_engine w1) with (set_cur (set_eb w1 no_bufs) ENGINE).
    set (w2 := set_cur (set_eb w1 no_bufs) ENGINE).
    assert (forall u, u ∈ first -> u <> 0%N) as Ho0.
    { intros u Hu. apply Hfirst in Hu. unfold first_level in Hu. clear -Hu Hr. set_solver. }
    destruct (loading_all isW d r c attrs Hr Hd Hg ∅ first ∅ w2) as (w3 & E3 & L); [|done|].
    { constructor.
      - done.
      - done.
      - subst w2 w1. simpl. f_equal; clear; set_solver.
      - done.
      - done.
      - done.
      - intros u. change (wreg w2) with ((∅ : gset uid) ∪ {[r]}). clear; set_solver.
      - intros x p Hne. change (wgr w2) with ((∅ : graph) ∪ ∅). rewrite elem_of_union. split.
        + intros [H|H]; by apply elem_of_empty in H.
        + intros [_ [H|(_ & u & q & H & _)]]; by apply elem_of_empty in H.
      - intros p H. by apply elem_of_empty in H.
      - intros p _. change (wgr w2) with ((∅ : graph) ∪ ∅). rewrite elem_of_union. split; [|tauto].
        intros [H|H]; by apply elem_of_empty in H.
      - intros q v. change (wgr w2) with ((∅ : graph) ∪ ∅). rewrite elem_of_union.
        intros [H|H]; by apply elem_of_empty in H. }
    assert (r ∈ wreg w2) as Hrw2. { change (r ∈ (∅ : gset uid) ∪ {[r]}). clear; set_solver. }
    destruct (load_iris_ebuf isW r first w2 w3) as (Hf & HU & _); [done|done|done|done|done| |done| |done|].
    { constructor; [|done|done]. change (∅ = ((∅ : gset uid) ∪ {[r]}) ∖ {[r]}). clear; set_solver. }
    { intros u p. by apply (V_typed isW d r Hg). }
    rewrite E3. rewrite union_empty_r_L in L. set (P := list_to_set first : gset uid) in *.
    assert (forall u, u ∈ P <-> u = r \/ (u <> 0%N /\ exists q, (0%N, TLink q u) ∈ d)) as HP.
    { intros u. subst P. rewrite elem_of_list_to_set, Hfirst. unfold first_level.
      rewrite elem_of_union, elem_of_difference, !elem_of_singleton, elem_link_targets. tauto. }
    assert (r ∈ P) as HrP by (apply HP; by left).
    assert (r ∈ first) as HrF by (by apply elem_of_list_to_set in HrP).
    change (cur w1) with USER. rewrite (right_id_L ∅ (∪)).
    set (w := set_wgr (set_cur w3 USER) (wgr (set_cur w3 USER) ∪ NG)).
    destruct L as [L1 L2 L3 L4 L5 L6 L7 L8 L9 L10 L11]. destruct Hf as [F1 F2 F3].
    assert (db w = d) as Dw by exact L4.
    assert (wroot w = Some r) as Rw by exact L1.
    assert (ub w = Bufs {[r]} ∅ ∅) as Uw by exact L3.
    assert (forall t, t ∈ wgr w <-> t ∈ wgr w3 \/ t ∈ NG) as Gw.
    { intros t. change (wgr w) with (wgr w3 ∪ NG). apply elem_of_union. }
    assert (expd w = ∅) as Ew by exact L6.
    change (eb w3) with (eb w) in *. change (wreg w3) with (wreg w) in *. change (db w2) with d in HU.
    assert (cur w = USER) as Kw by done. clearbody w. clear L1 L2 L3 L4 L5 L6 w1 w2 E3 Hrw2.
    assert (r ∈ wreg w) as Hrr by (apply L7; by left).
    assert (forall p, (r, p) ∈ wgr w <-> (r, p) ∈ V \/ (r, p) ∈ NG) as Hrg.
    { intros p. rewrite Gw. destruct (decide (triples_of V r = ∅)) as [Hem|Hem].
      - assert (forall p', (r, p') ∉ V) as Hnk.
        { intros p' Hp'. assert ((r, p') ∈ triples_of V r) as H by by apply elem_triples_of.
          rewrite Hem in H. by apply elem_of_empty in H. }
        rewrite (L10 p Hnk). pose proof (not_elem_of_empty (C := graph) (r, p)). pose proof (Hnk p). tauto.
      - apply set_choose_L in Hem as [[y p'] Hy]. apply elem_triples_of in Hy as [Hy Heq].
        simpl in Heq. subst y. rewrite (L9 p HrP) by eauto. tauto. }
    assert (forall x p, x <> r -> (x, p) ∈ wgr w <-> (x, p) ∈ V /\
       (x ∈ P \/ ((exists c, p = TType c) /\ exists u q, u ∈ P /\ (u, TLink q x) ∈ V))) as Hog.
    { intros x p Hne. rewrite Gw. unfold V. rewrite (L8 x p Hne). split; [|tauto]. intros [H|H]; [done|].
      by apply NGo in H as [? _]. }
    assert (store_checks isW (wroot w) (wgr w) r = None) as ->.
    { rewrite Rw. apply store_checks_ok; [|done|done]. exists c. apply Hrg. right. apply elem_new_graph. by left. }
    assert (notify_update w r = (w, None)) as ->.
    { unfold notify_update. assert (cur_buf w = Bufs {[r]} ∅ ∅) as -> by (unfold cur_buf; by rewrite Kw). cbn [badd bupd bdel].
      rewrite decide_False by apply not_elem_of_empty. rewrite decide_True; [done|]. clear; set_solver. }
    destruct (serialize_buffers dc (order (badd (eb w))) (order (bupd (eb w))) (order (bdel (eb w))) w ENGINE) as [p4 m] eqn:E4.
    exists w, m, p4. split; [done|]. split; [done|].
    assert (forall x p, (x, p) ∈ gr (abs w) <-> (x, p) ∈ V \/ (x, p) ∈ NG) as GA.
    { intros x p. rewrite (elem_abs w r) by done. rewrite Uw, Dw. simpl. fold V.
      destruct (decide (x = r)) as [->|Hne]; [rewrite Hrg; tauto|].
      assert ((x, p) ∉ NG) as HnN. { intros H. by apply NGo in H as [? _]. }
      destruct (decide (x ∈ wreg w)) as [Hx|Hx].
      - rewrite (Hog x p Hne). apply L7 in Hx as Hx'. destruct Hx' as [?|[HxP _]]; [done|]. tauto.
      - pose proof (not_elem_of_empty (C := gset uid) x). tauto. }
    assert (forall x, x ∈ reg (abs w) <-> x = r \/ exists p, (x, p) ∈ V) as RA.
    { intros x. rewrite (elem_abs_reg w r) by done. rewrite Uw, Dw, L7. simpl. fold V.
      pose proof (not_elem_of_empty (C := gset uid) x). tauto. }
    split.
    2: { split; [apply set_eq; intros [x p]; rewrite elem_of_union; apply GA|]. split.
         - apply set_eq. intros x. rewrite RA, elem_of_union, elem_of_singleton, elem_subjects. done.
         - split; [done|]. split; [done|]. split; [done|]. split.
           { intros _ p. rewrite Dw. intros H. apply Hrg. by left. }
           split; [done|]. split; [done|]. split; [done|]. intros H. by apply HU. }
    constructor; rewrite ?Uw, ?Dw; simpl; fold V.
    - done.
    - done.
    - done.
    - exact Hd.
    - constructor.
      + rewrite L7. intros [H|[H [p Hp]]]; [congruence|].
        apply elem_view in Hp as (y & ? & _ & Heq & _). symmetry in Heq. by apply sub_zero_nz in Heq.
      + intros x q H. destruct (decide (x = r)) as [->|Hne].
        * apply Hrg in H as [H|H]; [by apply map_graph_nz in H|]. by apply NGo in H as [_ [?|(? & ? & ?)]].
        * apply Hog in H as [H _]; [|done]. by apply map_graph_nz in H.
      + congruence.
    - intros u p Hu Hp. rewrite L7 in Hu. assert (u <> r) as Hne by tauto.
      destruct (proj1 (Hog u p Hne) Hp) as [Hv [HuP|[Ht _]]].
      + exfalso. apply Hu. right. eauto.
      + split; [done|]. split; [apply not_elem_of_empty|done].
    - intros u Hu Hb p. unfold buids in Hb. simpl in Hb. assert (u <> r) as Hne by (clear -Hb; set_solver).
      apply L7 in Hu as [?|[HuP _]]; [done|]. rewrite (Hog u p Hne). tauto.
    - intros u Hu. apply elem_of_singleton in Hu as ->. done.
    - intros u Hu. by apply elem_of_empty in Hu.
    - intros u Hu. by apply elem_of_empty in Hu.
    - intros u c' Hu Hv. destruct (decide (u = r)) as [->|Hne]; [apply Hrg; by left|].
      apply Hog; [done|]. apply L7 in Hu as [?|[HuP _]]; [done|]. tauto.
    - intros u Hu. rewrite Ew in Hu. by apply elem_of_empty in Hu.
    - intros u _. apply not_elem_of_empty.
    - intros x q v c' Hx Hl Hv Ht.
      assert (v <> r) as Hvr. { intros ->. by apply Hv. }
      apply Hog; [done|]. split; [done|]. right. split; [eauto|]. exists x, q.
      destruct (decide (x = r)) as [->|Hne].
      + split; [done|]. apply Hrg in Hl as [H|H]; [done|]. by apply NGo in H as [_ [?|(? & ? & ?)]].
      + apply Hog in Hl as [Hl _]; [|done]. split; [|done]. by apply L7 in Hx as [?|[? _]].
    - intros x q v H. apply GA in H as [H|H].
      + apply RA. right. by eapply (V_closed isW d r Hr Hg).
      + by apply NGo in H as [_ [?|(? & ? & ?)]].
    - intros u Hu. apply RA in Hu. setoid_rewrite GA. destruct Hu as [->|[p Hp]].
      + exists c. right. apply elem_new_graph. by left.
      + destruct (V_typed isW d r Hg u p Hp) as [c' ?]. exists c'. by left.
    - intros u c' H Hne. apply GA in H as [H|H]; [by apply (V_wrap isW d r Hg u)|]. by apply NGo in H as [? _].
  Qed.

  Local Lemma view_noted x p : (x, p) ∈ view r (d ∪ map_graph (sub_root r) NG) <-> (x, p) ∈ V ∪ NG.
  Proof.
    rewrite elem_of_union. rewrite elem_view. setoid_rewrite elem_of_union. split.
    - intros (x' & p' & [Hin|Hin] & -> & ->).
      + left. apply elem_view. eauto.
      + right. apply elem_map_graph in Hin as ([y q] & Hin & Heq). unfold map_triple in Heq. simpl in Heq.
        injection Heq as -> ->. apply NGo in Hin as Hin'. destruct Hin' as [-> Hq].
        rewrite sub_zero_root by done. by destruct Hq as [->|(? & ? & ->)].
    - intros [H|H].
      + apply elem_view in H as (x' & p' & H & -> & ->). eauto 10.
      + exists (sub_root r x), (map_po (sub_root r) p). apply NGo in H as H'. destruct H' as [-> Hq].
        split; [|split; [by rewrite sub_zero_root|by destruct Hq as [->|(? & ? & ->)]]].
        right. apply elem_map_graph. exists (r, p). done.
  Qed.

  Lemma r_connect_spec first :
    (forall u, u ∈ first <-> u ∈ first_level r d) ->
    exists s, r_connect isW dc order first d r c attrs = (s, None) /\ rinv isW s r (abs (fst s)) ∅ /\
      abs (snd s) = abs (fst s) /\ gr (abs (fst s)) = V ∪ NG /\ reg (abs (fst s)) = {[r]} ∪ subjects V /\
      ub (fst s) = no_bufs /\ ub (snd s) = Bufs {[r]} ∅ ∅ /\ db (snd s) = d /\
      wreg (fst s) = wreg (snd s) /\ expd (fst s) = ∅.
  Proof.
    intros Hfirst. unfold r_connect. fold NG. rewrite decide_False by done.
    destruct (serve_init_spec first Hfirst) as
      (p & m & p4 & Em & Es & Hp & Hga & Hra & Hdp & Hup & Hxp & _ & A1 & A2 & A3 & A4).
    rewrite Es. clear Es.
    unfold w_store. change (wroot (w_empty ∅)) with (@None uid).
    assert (store_checks isW None NG r = None) as Hsc.
    { unfold store_checks. assert (is_wrapper isW NG r = true) as ->.
      { unfold is_wrapper. apply existsb_exists. exists c. split; [|done].
        apply elem_of_list_In, elem_classes, elem_new_graph. by left. }
      rewrite (bool_decide_false (_ /\ _)) by tauto. simpl.
      destruct (classes NG r) eqn:E; [|done]. by apply new_graph_classes in E. }
    destruct (classes NG r) as [|c0 cs] eqn:Ec; [by apply new_graph_classes in Ec|].
    rewrite Hsc. rewrite decide_False by set_solver.
    match goal with |- context [deserialize_buffers isW ENGINE m ?X] => set (w1 := X) end.
    assert (wreg w1 = {[r]} /\ (forall t, t ∈ wgr w1 <-> t ∈ NG) /\ wroot w1 = Some r /\ cur w1 = USER /\
            ub w1 = Bufs {[r]} ∅ ∅ /\ expd w1 = ∅) as (W1 & W2 & W3 & W4 & W5 & W6).
    { split; [change ((∅ : gset uid) ∪ {[r]} = {[r]}); clear; set_solver|].
      split; [intros t; change (t ∈ (∅ : graph) ∪ NG <-> t ∈ NG); clear; set_solver|].
      split; [done|]. split; [done|]. split; [|done]. subst w1. simpl. f_equal; clear; set_solver. }
    clearbody w1. clear Hsc c0 cs Ec.
    pose proof (wi_root _ _ _ Hp) as Hpr. pose proof (wi_rreg _ _ _ Hp) as Hprr.
    assert (forall x q, x ∈ wreg p -> (x, q) ∈ wgr p <-> (x, q) ∈ V ∪ NG) as Hpg.
    { intros x q Hx. rewrite <- Hga, (elem_abs p r) by done. tauto. }
    assert (forall u, u ∈ badd (eb p) <-> u ∈ wreg p /\ u <> r) as HA.
    { intros u. rewrite A1. rewrite elem_of_difference, elem_of_singleton. done. }
    assert (forall u, u ∈ bupd (eb p) -> u = r) as HU. { intros u Hu. by apply A2, elem_of_singleton in Hu. }
    destruct (C08_replay isW dc p ENGINE w1 ENGINE (order (badd (eb p))) (order (bupd (eb p))) (order (bdel (eb p))))
      as (c2 & w' & m' & E1 & E2 & E3 & E4 & _); [done| | |apply Hperm..|].
    { cbn [buf]. split_and!.
      - intros u H1 H2. apply HA in H1 as [_ H1]. by apply H1, HU.
      - rewrite A3. intros u _ H. by apply not_elem_of_empty in H.
      - rewrite A3. intros u _ H. by apply not_elem_of_empty in H. }
    { cbn [buf]. constructor.
      - by rewrite W3.
      - rewrite W1. intros u H1 H2. apply HA in H1 as [_ H1]. apply elem_of_singleton in H2. done.
      - rewrite W1, A3. clear -A2. set_solver.
      - intros u Hu. assert (u ∈ wreg p) as Hr'.
        { apply elem_of_union in Hu as [Hu|Hu]; [by apply HA|]. by rewrite (HU u Hu). }
        assert (forall c', (u, TType c') ∈ gr (abs p) <-> (u, TType c') ∈ wgr p) as Hc.
        { intros c'. rewrite (elem_abs p r) by done. tauto. }
        split.
        + destruct (wi_typed _ _ _ Hp u) as [c' Hc']; [apply (elem_abs_reg p r); [done|by left]|].
          exists c'. by apply Hc.
        + intros c' Hin HWc. rewrite W3. f_equal. destruct (decide (u = r)) as [->|Hne]; [done|]. apply Hc in Hin.
          rewrite (wi_wrap _ _ _ Hp u c' Hin Hne) in HWc. done.
      - rewrite A3. intros u H. by apply not_elem_of_empty in H.
      - intros u Hu [x y] Hin. apply elem_triples_of in Hin as [Hin Heq]. simpl in Heq. subst x.
        apply W2, NGo in Hin as [-> _]. by apply HA in Hu as [_ ?].
      - intros u H. cbn in H. clear -H. set_solver.
      - intros u H. cbn in H. by apply not_elem_of_empty in H.
      - intros u H. cbn in H. by apply not_elem_of_empty in H. }
    cbn [buf] in E1, E3. rewrite Em in E1. injection E1 as <- <-. rewrite E2. specialize (E4 eq_refl).
    destruct E3 as [O1 O2 _ O4 _ O6 (O7 & _ & O8)]. rewrite A3 in O1.
    assert (wreg c2 = wreg p) as R2.
    { rewrite O1, W1, A1. apply set_eq. intros x. rewrite elem_of_difference, elem_of_union, elem_of_difference, !elem_of_singleton.
      pose proof (not_elem_of_empty (C := gset uid) x). destruct (decide (x = r)) as [->|]; tauto. }
    assert (expd c2 = ∅) as X2. { rewrite O6, Hxp, W6. clear. set_solver. }
    assert (forall u q, u ∈ badd (eb p) \/ u ∈ bupd (eb p) -> (u, q) ∈ wgr c2 <-> (u, q) ∈ wgr p) as Gs.
    { intros u q Hu. specialize (O2 u). rewrite elem_of_union in O2. specialize (O2 Hu).
      assert ((u, q) ∈ triples_of (wgr c2) u <-> (u, q) ∈ triples_of (wgr p) u) as H by (by rewrite O2).
      rewrite !elem_triples_of in H. simpl in H. tauto. }
    assert (forall u q, u ∉ badd (eb p) -> u ∉ bupd (eb p) ->
      (u, q) ∈ wgr c2 <-> (u, q) ∈ NG \/ sent_type (wgr p) (badd (eb p) ∪ bupd (eb p)) u q) as Go.
    { intros u q H1 H2. rewrite O4; [by rewrite W2|]. unfold buids. rewrite A3, !not_elem_of_union.
      split; [done|]. apply not_elem_of_empty. }
    assert (forall u q, u ∈ wreg p -> (u, q) ∈ wgr c2 <-> (u, q) ∈ V ∪ NG) as Gr.
    { intros u q Hu. rewrite <- (Hpg u q Hu). destruct (decide (u ∈ badd (eb p) \/ u ∈ bupd (eb p))) as [Hb|Hb]; [by apply Gs|].
      assert (u = r) as ->. { destruct (decide (u = r)); [done|]. destruct Hb. left. by apply HA. }
      assert ((r, q) ∉ V) as HnV. { intros H. apply Hb. right. apply A4. eauto. }
      rewrite Go by tauto. rewrite (Hpg r q Hu), elem_of_union. split; [|tauto].
      intros [H|(H & _)]; [tauto|]. apply Hpg in H; [|done]. by apply elem_of_union in H. }
    assert (forall u q, u ∉ wreg p -> (u, q) ∈ wgr c2 <-> sent_type (wgr p) (badd (eb p) ∪ bupd (eb p)) u q) as Gn.
    { intros u q Hu. rewrite Go; [|by intros [? _]%HA|by intros ->%HU]. split; [|tauto].
      intros [H|H]; [|done]. apply NGo in H as [-> _]. done. }
    set (D := d ∪ map_graph (sub_root r) NG).
    set (w2 := set_db (set_cur_buf c2 (Bufs (badd (cur_buf c2) ∖ {[r]}) (bupd (cur_buf c2)) (bdel (cur_buf c2)))) D).
    assert (cur_buf c2 = Bufs {[r]} ∅ ∅) as Hcb. { unfold cur_buf. rewrite O8, W4, E4, W5. done. }
    assert (core w2 = core c2 /\ ub w2 = no_bufs /\ expd w2 = ∅ /\ cur w2 = USER) as (C2 & U2 & XX & K2).
    { subst w2. rewrite Hcb. unfold set_cur_buf. rewrite O8, W4. cbn. split; [done|].
      split; [unfold no_bufs; f_equal; clear; set_solver|]. split; [done|]. by rewrite O8, W4. }
    assert (db w2 = D) as D2 by done. clearbody w2.
    assert (wreg w2 = wreg p) as R3 by (unfold wreg; by rewrite C2).
    assert (wgr w2 = wgr c2) as G3 by (unfold wgr; by rewrite C2).
    assert (wroot w2 = Some r) as T3. { unfold wroot. rewrite C2. change (wroot c2 = Some r). by rewrite O7. }
    assert (view r D = gr (abs p)) as HvD. { rewrite Hga. apply set_eq. intros [x q]. apply view_noted. }
    assert (forall x q, (x, q) ∈ gr (abs p) -> x ∈ reg (abs p)) as Hcl.
    { intros x q H. apply (elem_abs p r) in H; [|done]. apply (elem_abs_reg p r); [done|].
      destruct H as [[? _]|(_ & ? & ?)]; [by left|right; eauto]. }
    assert (abs w2 = abs p) as Ha.
    { apply sess_eq.
      - intros u. rewrite (elem_abs_reg w2 r) by done. rewrite U2, D2, HvD, R3. cbn. split.
        + intros [H|[_ [q H]]]; [apply (elem_abs_reg p r); [done|by left]|by eapply Hcl].
        + intros H. right. split; [apply not_elem_of_empty|]. destruct (wi_typed _ _ _ Hp u H) as [c' ?]. eauto.
      - intros [u q]. rewrite (elem_abs w2 r) by done. rewrite U2, D2, HvD, R3, G3. cbn.
        destruct (decide (u ∈ wreg p)) as [Hu|Hu].
        + rewrite (Gr u q Hu), Hga. tauto.
        + pose proof (not_elem_of_empty (C := gset uid) u). tauto.
      - unfold abs. by rewrite T3, Hpr. }
    assert (winv isW w2 r) as Hw2.
    { constructor; rewrite ?Ha, ?R3, ?G3, ?U2, ?D2, ?HvD, ?XX; cbn [badd bupd bdel no_bufs].
      - done.
      - done.
      - done.
      - intros x q Hin. unfold D in Hin. apply elem_of_union in Hin as [Hin|Hin]; [by apply Hd|].
        apply elem_map_graph in Hin as ([y q'] & Hin & Heq). unfold map_triple in Heq. simpl in Heq.
        injection Heq as -> ->. apply NGo in Hin as [-> Hq]. split; [by apply sub_root_ne|].
        intros q0 Hl. by destruct Hq as [->|(? & ? & ->)].
      - pose proof (wi_nz _ _ _ Hp) as [N1 N2 N3]. constructor.
        + by rewrite R3.
        + intros x q. rewrite G3. destruct (decide (x ∈ wreg p)) as [Hx|Hx].
          * rewrite (Gr x _ Hx), <- (Hpg x _ Hx). apply N2.
          * rewrite (Gn x _ Hx). intros (_ & [? ?] & _). done.
        + by rewrite T3, <- Hpr.
      - intros u q Hu Hin. apply (Gn u q Hu) in Hin as (Hin & Ht & _). split; [|split; [apply not_elem_of_empty|done]].
        apply (wi_out _ _ _ Hp u q Hu) in Hin as (Hin & Hb & _). apply (elem_abs p r); [done|]. by right.
      - intros u Hu _ q. by rewrite (Gr u q Hu), Hga.
      - intros u H. by apply not_elem_of_empty in H.
      - intros u H. by apply not_elem_of_empty in H.
      - intros u H. by apply not_elem_of_empty in H.
      - intros u c' Hu Hin. rewrite (Gr u _ Hu), <- Hga. done.
      - intros u H. by apply not_elem_of_empty in H.
      - intros u H. by apply not_elem_of_empty in H.
      - intros x q v c' Hx Hl Hv Ht. apply (Gn v _ Hv).
        assert ((x, TLink q v) ∈ wgr p) as Hlp. { apply Hpg; [done|]. by apply Gr in Hl. }
        split; [|split; [eauto|exists x, q; split; [|done]]].
        + apply (elem_abs p r) in Ht; [|done]. destruct Ht as [[? _]|(_ & _ & Ht)]; [done|].
          by apply (wi_ntype _ _ _ Hp x q v c').
        + apply elem_of_union. destruct (decide (x = r)) as [->|Hne]; [right|left; by apply HA].
          apply A4. exists (TLink q v). apply Gr in Hl; [|done]. apply elem_of_union in Hl as [Hl|Hl]; [done|].
          by apply NGo in Hl as [_ [?|(? & ? & ?)]].
      - apply Hp.
      - apply Hp.
      - apply Hp. }
    exists (w2, p4). split; [done|]. cbn [fst snd].
    assert (p4 = set_eb p no_bufs) as ->. { unfold serialize_buffers in Em. by injection Em as <- _. }
    assert (quiet p (set_eb p no_bufs)) as Hq by (repeat split; done).
    assert (abs (set_eb p no_bufs) = abs p) as Hab by (by apply abs_ext).
    assert (winv isW (set_eb p no_bufs) r) as Hp5 by (by apply (winv_quiet isW p)).
    rewrite Ha, Hab. split; [|split; [done|split; [done|split; [done|]]]].
    - constructor; cbn [fst snd].
      + done.
      + exists (set_eb p no_bufs). split; [by rewrite addj_empty|]. split; [done|]. split.
        { intros x q H. by apply not_elem_of_empty in H. }
        split; [|done]. change (bdel (ub p) = ∅). by rewrite Hup.
      + by rewrite D2.
      + intros u Hu _. rewrite U2, R3 in Hu. change (u ∈ wreg p). destruct Hu as [Hu|Hu]; [done|].
        by apply not_elem_of_empty in Hu.
    - split; [done|]. split; [exact Hup|]. split; [exact Hdp|]. split; [exact R3|done].
  Qed.
End init.
