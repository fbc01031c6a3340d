(** The client's side of a remote session (Remote.v): what it receives from the
    server is what its own session shows already ([abs], with the server's visible
    triples as backend), so loading changes nothing that can be observed. *)
From stdpp Require Import base sets list gmap countable.
From Verif Require Import Prelude Cuds CudsProofs Wrapper WrapperProofs WrapperRefine WrapperOps WrapperOps2
  WrapperCommit Buffers PropBuffers Remote RemoteServer.

(** What loading may change: as [lrel], but objects may become expired, because the
    server says so. *)
Record crel (w w' : wsess) : Prop := {
  kr_abs : abs w' = abs w;
  kr_ub : ub w' = ub w;
  kr_db : db w' = db w;
  kr_reg : wreg w ⊆ wreg w';
  kr_gr : forall x p, x ∈ wreg w -> (x, p) ∈ wgr w' <-> (x, p) ∈ wgr w }.

Lemma crel_refl w : crel w w.
Proof. by constructor. Qed.
Lemma crel_trans w1 w2 w3 : crel w1 w2 -> crel w2 w3 -> crel w1 w3.
Proof.
  intros [A1 A2 A3 A4 A5] [B1 B2 B3 B4 B5]. constructor; [congruence|congruence|congruence|by etrans|].
  intros x p Hx. rewrite B5, A5; [done|done|by apply A4].
Qed.
Lemma lrel_crel w w' : lrel w w' -> crel w w'.
Proof. intros [A1 A2 A3 A4 A5 A6 A7]. by constructor. Qed.
Lemma same_crel w w' : core w' = core w -> ub w' = ub w -> db w' = db w -> crel w w'.
Proof.
  intros Hc Hu Hd. constructor; [by apply abs_ext|done|done|unfold wreg; by rewrite Hc|].
  intros x p _. unfold wgr. by rewrite Hc.
Qed.

(** The client inside an engine context. *)
Definition winvE (isW : cls -> bool) (w : wsess) (r : uid) : Prop :=
  winv isW (set_cur w USER) r /\ cur w = ENGINE /\ bdel (eb w) = ∅.

(** ** Receiving one object *)
Lemma entry_view isW w r (x : uid) :
  winv isW w r -> x <> 0%N ->
  entry_of (view r (db w)) x =
    Entry x (map_graph (sub_zero r) (triples_of (db w) (sub_root r x)))
            (map_graph (sub_zero r) (neighbor_types (db w) (sub_root r x))).
Proof.
  intros Hw Hx. pose proof (wi_r0 _ _ _ Hw) as Hr0. pose proof (wi_db _ _ _ Hw) as Hd.
  unfold entry_of. f_equal.
  - apply set_eq. intros [y p]. rewrite elem_triples_of, loaded_triples by done. simpl. tauto.
  - apply set_eq. intros [y p]. rewrite elem_nb, loaded_types by done. tauto.
Qed.

Lemma load_iri_create isW w r (x : uid) w' o :
  winv isW (set_cur w USER) r -> x <> 0%N -> load_iri isW w x = (w', Ok (Some o)) ->
  create_from_triples isW w (entry_of (view r (db w)) x) = (w', None).
Proof.
  intros Hw Hx. pose proof (wi_r0 _ _ _ Hw) as Hr0. pose proof (entry_view isW _ r x Hw Hx) as He.
  change (db (set_cur w USER)) with (db w) in He.
  unfold load_iri, create_from_triples. change (wroot w) with (wroot (set_cur w USER)).
  rewrite (wi_root _ _ _ Hw), He. cbn [e_own e_nb e_uid].
  destruct (decide (map_graph _ _ = ∅)); [done|]. cbv zeta. rewrite !sub_zero_root by done.
  destruct (store_checks _ _ _ _); [done|].
  destruct (notify_update _ _) as [w4 [e|]]; [done|]. by intros [= -> _].
Qed.

Lemma client_create isW w r (x : uid) :
  winvE isW w r -> x <> 0%N -> x ∉ bdel (ub w) -> (x ∈ wreg w -> x ∉ badd (ub w) /\ x ∉ bupd (ub w)) ->
  x ∈ reg (abs w) ->
  exists w', create_from_triples isW w (entry_of (view r (db w)) x) = (w', None) /\
    winvE isW w' r /\ crel w w' /\ x ∈ wreg w' /\ expd w' = expd w ∖ {[x]} /\
    (x ∈ wreg w -> core w' = core w).
Proof.
  intros (Hw & Hcur & Heb) Hx0 Hxd Hpend Hk.
  pose proof (wi_root _ _ _ Hw) as Hroot. pose proof (wi_r0 _ _ _ Hw) as Hr0.
  change (wroot w = Some r) in Hroot.
  assert (exists c, (x, TType c) ∈ view r (db w)) as [c0 Hc0].
  { apply (winv_known isW (set_cur w USER)); [done|done| | |done].
    - intros H. destruct (wi_add _ _ _ Hw _ H) as [Hi _]. by destruct (Hpend Hi).
    - intros H. destruct (wi_upd _ _ _ Hw _ H) as [Hi _]. by destruct (Hpend Hi). }
  destruct (load_iri_known isW w r x) as (w1 & E1 & A1 & A2 & A3 & A4 & A5 & A6 & A7 & A8);
    [done|done|done|done|done|apply (wi_db _ _ _ Hw)|eauto| |].
  { intros Hne c Hc. apply (wi_wrap _ _ _ Hw x c); [|done].
    apply (elem_abs (set_cur w USER) r); [done|]. change (wreg (set_cur w USER)) with (wreg w).
    change (wgr (set_cur w USER)) with (wgr w). cbn [set_cur ub db].
    destruct (decide (x ∈ wreg w)) as [Hin|Hin].
    - left. split; [done|]. destruct Hc as [Hc|Hc]; [done|]. by apply (wi_type _ _ _ Hw).
    - right. split; [done|]. split; [done|]. destruct Hc as [Hc|Hc]; [|done].
      by apply (wi_out _ _ _ Hw) in Hc as [? _]. }
  exists w1. split; [by eapply load_iri_create|].
  destruct (load_step isW (set_cur w USER) (set_cur w1 USER) r x) as [Hw1 Hl1];
    [done|done|done|done|eauto|done|done|simpl; rewrite A3; set_solver|done|done|done|exact A8|].
  split; [done|]. split; [destruct Hl1 as [L1 L2 L3 _ _ L6 L7]; constructor; [exact L1|exact L2|exact L3|exact L6|exact L7]|].
  split; [rewrite A1; set_solver|]. split; [done|].
  intros Hin. apply sess_eq.
  - intros y. change (y ∈ wreg w1 <-> y ∈ wreg w). rewrite A1. set_solver.
  - intros [y p]. change ((y, p) ∈ wgr w1 <-> (y, p) ∈ wgr w). rewrite A8. destruct (Hpend Hin) as [P1 P2].
    assert (x ∉ buids (ub w)) as Hb by (unfold buids; set_solver).
    split.
    + intros [[H _]|[[H ->]|(H & [c ->] & q & Hq)]]; [done| |].
      * by apply (wi_same _ _ _ Hw).
      * apply (wi_same _ _ _ Hw) in Hq; [|done|done].
        destruct (decide (y ∈ wreg w)) as [Hy|Hy]; [by apply (wi_type _ _ _ Hw)|].
        by apply (wi_ntype _ _ _ Hw x q).
    + intros H. destruct (decide (y = x)) as [->|Hne]; [|tauto].
      right. left. split; [|done]. by apply (wi_same _ _ _ Hw) in H.
  - change (wroot w1 = wroot w). congruence.
Qed.

(** ** Receiving many objects *)
Lemma client_create_all isW r G l : forall w,
  winvE isW w r -> view r (db w) = G ->
  (forall e, e ∈ l -> exists x, e = entry_of G x /\ x <> 0%N /\ x ∉ bdel (ub w) /\
     (x ∈ wreg w -> x ∉ badd (ub w) /\ x ∉ bupd (ub w)) /\ x ∈ reg (abs w)) ->
  exists w', create_all isW w l = (w', None) /\ winvE isW w' r /\ crel w w' /\
    expd w' ⊆ expd w /\ (forall e, e ∈ l -> e_uid e ∈ wreg w' /\ e_uid e ∉ expd w') /\
    ((forall e, e ∈ l -> e_uid e ∈ wreg w) -> core w' = core w).
Proof.
  induction l as [|e l IH]; intros w Hw HG Hl; simpl.
  { exists w. split; [done|]. split; [done|]. split; [apply crel_refl|]. split; [done|]. split; [|done].
    intros e He. by apply elem_of_nil in He. }
  destruct (Hl e) as (x & -> & H0 & H1 & H2 & H3); [by left|].
  destruct (client_create isW w r x) as (w1 & E1 & Hw1 & Hc1 & Hx1 & He1 & Hs1); [done..|].
  rewrite HG in E1. rewrite E1.
  destruct (IH w1) as (w2 & E2 & Hw2 & Hc2 & He2 & Hl2 & Hs2); [done|by rewrite (kr_db _ _ Hc1)| |].
  { intros e He. destruct (Hl e) as (y & -> & I0 & I1 & I2 & I3); [by right|]. exists y.
    rewrite (kr_ub _ _ Hc1), (kr_abs _ _ Hc1). split; [done|]. split; [done|]. split; [done|]. split; [|done].
    intros _. destruct (decide (y ∈ wreg w)) as [Hy|Hy]; [by apply I2|].
    destruct Hw as (Hw & _). split; intros H;
      [by apply (wi_add _ _ _ Hw) in H as [? _]|by apply (wi_upd _ _ _ Hw) in H as [? _]]. }
  exists w2. split; [done|]. split; [done|]. split; [by eapply crel_trans|].
  assert (expd w1 ⊆ expd w) as Hee by (rewrite He1; set_solver).
  split; [by etrans|]. split.
  - intros e He. apply elem_of_cons in He as [->|He]; [|by apply Hl2].
    split; [by apply (kr_reg _ _ Hc2)|]. intros H. apply He2 in H. rewrite He1 in H. cbn [e_uid entry_of] in H. set_solver.
  - intros Hall. rewrite Hs2, Hs1; [done|apply (Hall (entry_of G x)); by left|].
    intros e He. apply (kr_reg _ _ Hc1), Hall. by right.
Qed.

Lemma expireE isW w r X :
  winvE isW w r -> winvE isW (fst (expire w X)) r /\ core (fst (expire w X)) = core w /\
    ub (fst (expire w X)) = ub w /\ db (fst (expire w X)) = db w.
Proof.
  intros (Hw & Hc & He). split; [|done]. split; [|done].
  exact (proj1 (expire_spec isW (set_cur w USER) r X Hw)).
Qed.

Lemma client_found isW w r s J p (u : uid) :
  winv isW w r -> srv isW J p r s -> view r (db w) = gr s -> u ∉ bdel (ub w) ->
  (u ∈ wreg w -> u ∉ badd (ub w) /\ u ∉ bupd (ub w)) ->
  u ∈ reg (abs w) <-> u ∈ reg s.
Proof.
  intros Hw (p0 & _ & Hp & _ & Hd & <-) HG Hud Hpend. split.
  - intros Hk. destruct (winv_known isW w r u) as [c Hc]; [done|done| | |done|].
    + intros H. destruct (wi_add _ _ _ Hw _ H) as [Hi _]. by destruct (Hpend Hi).
    + intros H. destruct (wi_upd _ _ _ Hw _ H) as [Hi _]. by destruct (Hpend Hi).
    + rewrite HG in Hc. apply (elem_abs p0 r) in Hc; [|apply Hp]. apply (elem_abs_reg p0 r); [apply Hp|].
      destruct Hc as [[? _]|(_ & ? & ?)]; [by left|right; eauto].
  - intros Hk. destruct (wi_typed _ _ _ Hp u Hk) as [c Hc]. rewrite <- HG in Hc.
    apply (elem_abs_reg w r); [apply Hw|]. right. eauto.
Qed.

Lemma answer_uid s us : map (option_map e_uid) (map (answer s) us) = load s us.
Proof.
  unfold load. rewrite map_map. apply map_ext. intros u. unfold answer. by case_decide.
Qed.

Section client.
  Context (isW : cls -> bool) (O : onto) (dc : uid -> cls) (order : gset uid -> list uid)
    (Hord : forall X x, x ∈ order X -> x ∈ X).

  (** One request; the client is inside an engine context. *)
  Lemma request_load_spec expired us w J p r s :
    winvE isW w r -> srv isW J p r s -> view r (db w) = gr s -> us <> [] ->
    (forall u, u ∈ us -> u <> 0%N /\ u ∉ bdel (ub w) /\ (u ∈ wreg w -> u ∉ badd (ub w) /\ u ∉ bupd (ub w))) ->
    exists w' p', request_load isW dc order expired us (w, p) = ((w', p'), Ok (map (found w) us)) /\
      winvE isW w' r /\ srv isW J p' r s /\ crel w w' /\ wreg p ⊆ wreg p' /\ ub p' = ub p /\
      (forall u, u ∈ us -> u ∈ reg (abs w) -> u ∈ wreg w' /\ u ∈ wreg p') /\
      (forall u, u ∈ us -> u ∉ expd w') /\
      (forall x, x ∈ wreg w' -> x ∈ wreg w \/ (x ∈ wreg p')) /\
      ((forall u, u ∈ us -> u ∈ wreg w) -> core w' = core w).
  Proof.
    intros Hw Hp HG Hne Hus. unfold request_load.
    set (exp := if decide (expired = ∅) then expd w else expired). clearbody exp.
    destruct (serve_load_spec isW dc order Hord exp us J p r s) as
      (p' & m & E & Hp' & Hrp & Hubp & Hin & Hmd & Hm & Hme); [done|done|by intros u Hu; apply Hus|].
    rewrite E. clear E.
    assert (forall u, u ∈ us -> u ∈ reg (abs w) <-> u ∈ reg s) as Hfound.
    { intros u Hu. destruct (Hus u Hu) as (U0 & U1 & U2). destruct Hw as (Hw & _).
      by apply (client_found isW (set_cur w USER) r s J p). }
    unfold in_engine. assert (enter_engine w = w) as ->.
    { unfold enter_engine. destruct Hw as (_ & Hc & _). rewrite decide_True by done.
      destruct w; simpl in *; by subst. }
    unfold receive_body. rewrite Hmd. cbn [app].
    destruct (expireE isW w r (m_exp m) Hw) as (Hw0 & Hc0 & Hu0 & Hd0).
    assert (expd (fst (expire w (m_exp m))) ⊆ expd w ∪ m_exp m) as He0.
    { simpl. set_solver. }
    set (w0 := fst (expire w (m_exp m))) in *. clearbody w0.
    assert (crel w w0) as Hcr0 by (by apply same_crel).
    destruct (client_create_all isW r (gr s) (m_add m ++ m_upd m ++ omap id (map (answer s) us)) w0)
      as (w1 & E1 & Hw1 & Hc1 & He1 & Hl1 & Hs1).
    { done. } { by rewrite Hd0. }
    { intros e He. rewrite app_assoc in He. apply elem_of_app in He.
      assert (exists x, x ∈ us /\ x ∈ reg s /\ e = entry_of (gr s) x) as (x & Hx & Hr & ->).
      { destruct He as [He|He]; [by apply Hm|].
        apply elem_of_list_omap in He as (o & Ho & Hid). apply elem_of_list_In, in_map_iff in Ho as (x & <- & Hx).
        apply elem_of_list_In in Hx. unfold answer in Hid. case_decide; simplify_eq/=. eauto. }
      destruct (Hus x Hx) as (U0 & U1 & U2). exists x. rewrite Hu0, (kr_abs _ _ Hcr0).
      split; [done|]. split; [done|]. split; [done|]. split; [|by apply Hfound].
      unfold wreg. rewrite Hc0. done. }
    rewrite E1. simpl foldl.
    assert (forall u, u ∈ us -> u ∈ reg s -> u ∈ wreg w1 /\ u ∉ expd w1) as Hall.
    { intros u Hu Hr. apply (Hl1 (entry_of (gr s) u)). rewrite app_assoc. apply elem_of_app. right.
      apply elem_of_list_omap. exists (Some (entry_of (gr s) u)). split; [|done].
      apply elem_of_list_In, in_map_iff. exists u. unfold answer. rewrite decide_True by done.
      split; [done|]. by apply elem_of_list_In. }
    assert (crel w w1) as Hcr by (by eapply crel_trans).
    exists w1, p'. split.
    { rewrite answer_uid. destruct Hw as (_ & Hcu & _). destruct Hw1 as (_ & Hcu1 & _). rewrite Hcu.
      assert (set_cur w1 ENGINE = w1) as -> by (destruct w1; simpl in *; by subst).
      do 2 f_equal. unfold load. apply map_ext_in. intros u Hu. apply elem_of_list_In in Hu.
      unfold found. pose proof (Hfound u Hu). repeat case_decide; tauto. }
    split; [done|]. split; [done|]. split; [done|]. split; [done|]. split; [done|].
    split. { intros u Hu Hr. apply Hfound in Hr; [|done]. split; [by apply Hall|by apply Hin]. }
    split.
    { intros u Hu He. apply He1 in He as He'. apply He0 in He'.
      assert (u ∈ wreg w) as Hreg.
      { destruct (decide (u ∈ wreg w)) as [|Hn]; [done|].
        destruct Hw1 as (Hw1 & _). apply (wi_exp _ _ _ Hw1) in He as He''. destruct He'' as [Hr1 _].
        assert (u ∈ reg (abs w)) as Hk.
        { rewrite <- (kr_abs _ _ Hcr). apply (elem_abs_reg w1 r); [apply (wi_root _ _ _ Hw1)|by left]. }
        apply Hfound in Hk; [|done]. by destruct (Hall u Hu Hk) as [_ ?]. }
      assert (u ∈ reg (abs w)) as Hk.
      { destruct Hw as (Hw & _). apply (elem_abs_reg w r); [apply (wi_root _ _ _ Hw)|by left]. }
      apply Hfound in Hk; [|done]. by destruct (Hall u Hu Hk) as [_ ?]. }
    split.
    { (* only what has been received is new *)
      clear -E1 Hm Hin Hc0. revert E1.
      assert (forall e, e ∈ m_add m ++ m_upd m ++ omap id (map (answer s) us) -> e_uid e ∈ wreg p') as Hl.
      { intros e He. rewrite app_assoc in He. apply elem_of_app in He as [He|He].
        - apply Hm in He as (x & Hx & Hr & ->). by apply Hin.
        - apply elem_of_list_omap in He as (o & Ho & Hid). apply elem_of_list_In, in_map_iff in Ho as (x & <- & Hx).
          apply elem_of_list_In in Hx. unfold answer in Hid. case_decide; simplify_eq/=. by apply Hin. }
      assert (wreg w0 = wreg w) as <- by (unfold wreg; by rewrite Hc0). clear Hc0.
      generalize dependent w0. induction (m_add m ++ m_upd m ++ omap id (map (answer s) us)) as [|e l IH];
        intros w0; simpl; [intros [= <-]; tauto|].
      destruct (create_from_triples isW w0 e) as [w2 [x|]] eqn:E2; [done|]. intros E3 x Hx.
      apply (IH ltac:(intros e' He'; apply Hl; by right) w2 E3) in Hx as [Hx|Hx]; [|by right].
      assert (wreg w2 ⊆ wreg w0 ∪ {[e_uid e]}) as Hsub.
      { clear -E2. unfold create_from_triples in E2. case_decide; [injection E2 as <-; set_solver|].
        cbv zeta in E2.
        match type of E2 with context [set_wgr ?X (wgr ?X ∪ _ ∪ _)] => set (w3 := X) in E2 end.
        assert (wreg w3 ⊆ wreg w0 ∪ {[e_uid e]}) as H3.
        { subst w3. case_decide; [change (wreg w0 ⊆ wreg w0 ∪ {[e_uid e]}); set_solver|].
          unfold w_store. change (classes ∅ (e_uid e)) with (@nil cls). cbn [fst].
          change (wreg w0 ∪ {[e_uid e]} ⊆ wreg w0 ∪ {[e_uid e]}). done. }
        destruct (store_checks _ _ _ _); [done|].
        unfold notify_update in E2. revert E2. case_decide; [done|]. case_decide; intros [= <-]; [done|].
        unfold wreg. unfold set_cur_buf. destruct (cur _); done. }
      apply Hsub in Hx. apply elem_of_union in Hx as [Hx|Hx]; [by left|]. apply elem_of_singleton in Hx as ->.
      right. apply Hl. by left. }
    intros Hreg. rewrite Hs1; [done|]. intros e He. rewrite app_assoc in He. apply elem_of_app in He.
    unfold wreg. rewrite Hc0. destruct He as [He|He].
    - apply Hm in He as (x & Hx & _ & ->). by apply Hreg.
    - apply elem_of_list_omap in He as (o & Ho & Hid). apply elem_of_list_In, in_map_iff in Ho as (x & <- & Hx).
      apply elem_of_list_In in Hx. unfold answer in Hid. case_decide; simplify_eq/=. by apply Hreg.
  Qed.
End client.
