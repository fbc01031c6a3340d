(** Refreshing several objects at once, in the order of a Python set (property C75):
    the loop of wrapper_session.py:71-111 [load] with an arbitrary backend. *)
From stdpp Require Import base sets list gmap countable.
From Verif Require Import Prelude Cuds CudsProofs Wrapper WrapperProofs
  WrapperRefine WrapperOps WrapperOps2 WrapperCommit PropRefresh.

Definition in_db (d : graph) (r u : uid) : Prop := exists c, (u, TType c) ∈ view r d.
Definition not_in_db (d : graph) (r u : uid) : Prop := forall p, (u, p) ∉ view r d.

(** The class triples that loading u brings along. *)
Definition brought (d : graph) (r u x : uid) (p : po) : Prop :=
  (exists c, p = TType c) /\ (x, p) ∈ view r d /\ exists q, linked (view r d) u x q.

(** ** One element of the loop *)
Section elem.
  Context (isW : cls -> bool) (us : list uid) (w : wsess) (r u : uid).
  Context (Hidle : idle w r) (Hu : u ∈ wreg w) (Hu0 : u <> 0%N) (Hin : u ∈ us).
  Context (Hx1 : expd w ⊆ wreg w) (Hx2 : u ∉ expd w).
  Context (Hw : u <> r -> forall c, (u, TType c) ∈ wgr w \/ (u, TType c) ∈ view r (db w) -> isW c = false).
  Context (missing : gset uid) (Hm : u ∈ missing).

  Lemma elem_step :
    in_db (db w) r u \/ (not_in_db (db w) r u /\ u <> r) ->
    exists w' a, in_engine (load_next isW missing us u) w = (w', Ok a) /\
      (forall x, x ∈ wreg w' <-> x ∈ wreg w /\ (x = u -> in_db (db w) r u)) /\
      wroot w' = wroot w /\ ub w' = ub w /\ db w' = db w /\ cur w' = USER /\
      (forall x p, (x, p) ∈ wgr w' <->
        ((x, p) ∈ wgr w /\ x <> u) \/ ((x, p) ∈ view r (db w) /\ x = u) \/ brought (db w) r u x p) /\
      (forall x, x ∈ expd w' <->
        x ∈ expd w \/
        (x ∉ us /\ x ∈ wreg w /\ u <> r /\ neighbour_changed (wgr w) (view r (db w)) u x /\ ~ pending w x)).
  Proof.
    intros Hk. destruct Hidle as (Hcur & Hr & Hr0 & Hno).
    unfold in_engine, load_next. rewrite decide_True by done.
    assert (exists w2, enter_engine w = w2 /\ core w2 = core w /\ ub w2 = ub w /\ db w2 = db w /\ cur w2 = ENGINE /\
      expd w2 = expd w /\ bdel (eb w2) = ∅) as (w2 & -> & E1 & E2 & E3 & E4 & E5 & E6).
    { eexists. split; [done|]. unfold enter_engine. simpl. rewrite Hcur. rewrite decide_False by done. done. }
    assert (wreg w2 = wreg w) as R2 by (unfold wreg; by rewrite E1).
    assert (wgr w2 = wgr w) as G2 by (unfold wgr; by rewrite E1).
    assert (wroot w2 = Some r) as T2 by (unfold wroot; by rewrite E1).
    unfold load_missing. destruct Hk as [Hk|[Hg Hur]].
    - destruct (load_iri_known isW w2 r u) as (w3 & EL & A1 & A2 & A3 & A4 & A5 & A6 & A7 & A8);
        [done|done|done|done|done|by rewrite E3|by rewrite E3|by rewrite G2, E3|].
      rewrite EL, R2. rewrite (bool_decide_true (u ∈ wreg w)) by done.
      rewrite (bool_decide_false (Some u = None)) by done. cbn [andb].
      rewrite G2, E3, R2 in A8.
      assert (wreg w3 = wreg w) as A1'. { rewrite A1, R2. apply set_eq. intros x. clear -Hu. set_solver. }
      assert (forall x p, (x, p) ∈ wgr w3 <->
          ((x, p) ∈ wgr w /\ x <> u) \/ ((x, p) ∈ view r (db w) /\ x = u) \/ brought (db w) r u x p) as A8'.
      { intros x p. rewrite A8. unfold brought, linked. tauto. }
      assert (forall x q, (u, TLink q x) ∈ wgr w3 <-> (u, TLink q x) ∈ view r (db w)) as HL.
      { intros x q. rewrite A8'. unfold brought. split; [|tauto]. intros [[_ ?]|[[? _]|(_ & ? & _)]]; done. }
      match goal with |- context [if bool_decide (Some u <> wroot w3) then ?a else ?b] =>
        set (w4 := if bool_decide (Some u <> wroot w3) then a else b) end.
      exists (set_cur w4 (cur w)), (Some u). split; [done|].
      assert (core w4 = core w3 /\ ub w4 = ub w3 /\ db w4 = db w3) as (C1 & C2 & C3).
      { subst w4. by case_match. }
      assert (forall x, x ∈ expd w4 <-> x ∈ expd w \/
        (x ∉ us /\ x ∈ wreg w /\ u <> r /\ neighbour_changed (wgr w) (view r (db w)) u x /\ ~ pending w x)) as HX.
      { intros x. subst w4. rewrite A2.
        destruct (decide (u = r)) as [Hur|Hur]; [rewrite bool_decide_false by congruence|rewrite bool_decide_true by congruence].
        - rewrite A3, E5. subst r. clear -Hx2. set_solver.
        - unfold expire. simpl. rewrite A1', A3, E5, A4, E2.
          rewrite elem_of_intersection, elem_of_union, !elem_of_difference, elem_of_map, (pending_buids w),
            !elem_of_list_to_set.
          setoid_rewrite elem_of_union. setoid_rewrite elem_of_difference.
          assert ((exists y : rel * uid, x = y.2 /\ ((y ∈ links (wgr w3) u /\ y ∉ links (wgr w2) u) \/
                     (y ∈ links (wgr w2) u /\ y ∉ links (wgr w3) u))) <->
                  neighbour_changed (wgr w) (view r (db w)) u x) as ->.
          { unfold neighbour_changed, linked. rewrite G2. split.
            - intros ([q y] & -> & H). simpl. exists q. rewrite !elem_links in H. rewrite !HL in H. tauto.
            - intros (q & H). exists (q, x). split; [done|]. rewrite !elem_links, !HL. tauto. }
          rewrite ?elem_of_singleton. split; [tauto|].
          intros [H|H]; [|tauto]. split; [left; split; [done|congruence]|by apply Hx1]. }
      clearbody w4. unfold wreg, wroot, wgr in *. simpl. rewrite C1, C2, C3, A1'.
      split; [tauto|]. split; [congruence|]. split; [congruence|]. split; [congruence|]. split; [done|].
      split; [done|exact HX].
    - rewrite (load_iri_unknown isW w2 r u); [|done|done|done|by rewrite E3|by rewrite E3].
      rewrite R2. rewrite (bool_decide_true (u ∈ wreg w)) by done. rewrite T2.
      rewrite (bool_decide_true (Some u <> Some r)) by congruence.
      rewrite (bool_decide_true ((None : option uid) = None)) by done. cbn [andb].
      set (w4 := fst (expire w2 _)).
      assert (core w4 = core w /\ ub w4 = ub w /\ db w4 = db w /\ cur w4 = ENGINE) as (C1 & C2 & C3 & C4).
      { subst w4. simpl. done. }
      assert (forall x, x ∈ expd w4 <-> x ∈ expd w \/
        (x ∉ us /\ x ∈ wreg w /\ u <> r /\ neighbour_changed (wgr w) (view r (db w)) u x /\ ~ pending w x)) as HX.
      { intros x. subst w4. unfold expire. simpl. rewrite R2, E5, E2.
        rewrite elem_of_intersection, elem_of_union, !elem_of_difference, elem_of_map, (pending_buids w), elem_of_list_to_set.
        assert ((exists y : rel * uid, x = y.2 /\ y ∈ (∅ ∖ links (wgr w2) u ∪ links (wgr w2) u ∖ ∅ : gset (rel * uid))) <->
                  neighbour_changed (wgr w) (view r (db w)) u x) as ->.
        { unfold neighbour_changed, linked. rewrite G2. split.
          - intros ([q y] & -> & H). simpl. exists q. left. split; [|apply Hg]. apply elem_links. clear -H. set_solver.
          - intros (q & [[H _]|[H _]]); [|by apply Hg in H].
            exists (q, x). split; [done|]. apply elem_links in H. clear -H. set_solver. }
        split; [tauto|]. intros [H|H]; [|tauto]. split; [by left|by apply Hx1]. }
      clearbody w4.
      assert (wreg w4 = wreg w) as R4 by (unfold wreg; by rewrite C1).
      rewrite (bool_decide_true (u ∈ wreg w4)) by (by rewrite R4).
      unfold w_delete_triples, delete_triples. change (reg (core w4)) with (wreg w4).
      rewrite decide_True by (by rewrite R4).
      assert (~ in_db (db w) r u) as Hnk by (intros [c Hc]; by apply Hg in Hc).
      eexists _, None. split; [done|]. unfold notify_delete, cur_buf, set_cur_buf.
      unfold wreg, wroot, wgr in *. simpl. rewrite C4, C1.
      repeat case_decide; simpl; rewrite ?R4, ?C1, ?C2, ?C3;
        (split; [intros x; rewrite elem_of_difference, elem_of_singleton; tauto|];
         split; [done|]; split; [done|]; split; [done|]; split; [done|]; split;
         [intros x p; rewrite elem_of_filter; simpl; split;
          [tauto|intros [?|[[Hv ->]|(_ & _ & q & Hv)]]; [tauto|by apply Hg in Hv|by apply Hg in Hv]]
         |exact HX]).
  Qed.
End elem.

(** ** The loop *)
Definition asks_ok (isW : cls -> bool) (w : wsess) (r u : uid) : Prop :=
  u ∈ wreg w /\ u <> 0%N /\
  (in_db (db w) r u \/ (not_in_db (db w) r u /\ u <> r)) /\
  (u <> r -> forall c, (u, TType c) ∈ wgr w \/ (u, TType c) ∈ view r (db w) -> isW c = false).

Lemma changed_ext g1 g2 d u x :
  (forall q, (u, TLink q x) ∈ g1 <-> (u, TLink q x) ∈ g2) ->
  neighbour_changed g1 d u x <-> neighbour_changed g2 d u x.
Proof. intros H. unfold neighbour_changed, linked. by setoid_rewrite H. Qed.

Lemma loop_spec isW (missing : gset uid) us r todo : forall w,
  NoDup todo -> (forall u, u ∈ todo -> u ∈ us /\ u ∈ missing /\ asks_ok isW w r u) ->
  idle w r -> expd w ⊆ wreg w -> (forall x, x ∈ expd w -> x ∉ us) ->
  exists w' l, load_loop isW missing us todo w = (w', Ok l) /\
    (forall x, x ∈ wreg w' <-> x ∈ wreg w /\ (x ∈ todo -> in_db (db w) r x)) /\
    ub w' = ub w /\ db w' = db w /\ idle w' r /\
    (forall x p, (x, p) ∈ wgr w' <->
       ((x, p) ∈ wgr w /\ x ∉ todo) \/ ((x, p) ∈ view r (db w) /\ x ∈ todo) \/
       exists u, u ∈ todo /\ brought (db w) r u x p) /\
    (forall x, x ∈ expd w' <->
       x ∈ expd w \/
       (x ∉ us /\ x ∈ wreg w /\ ~ pending w x /\
        exists u, u ∈ todo /\ u <> r /\ neighbour_changed (wgr w) (view r (db w)) u x)).
Proof.
  induction todo as [|u todo IH]; intros w Hnd Hok Hi Hx Hxu; simpl.
  { exists w, []. split; [done|]. split; [intros x; split; [intros H0; split; [done|intros H; by apply elem_of_nil in H]|tauto]|].
    split; [done|]. split; [done|]. split; [done|]. split.
    - intros x p. split; [intros H0; left; split; [done|apply not_elem_of_nil]|].
      intros [[? _]|[[_ H]|(u & H & _)]]; [done|by apply elem_of_nil in H|by apply elem_of_nil in H].
    - intros x. split; [tauto|]. intros [?|(_ & _ & _ & u & H & _)]; [done|by apply elem_of_nil in H]. }
  inversion Hnd as [|? ? Hnu Hnd']; subst; clear Hnd; rename Hnd' into Hnd.
  destruct (Hok u) as (Hus & Hm & Hreg & Hu0 & Hk & HW); [by left|].
  assert (u ∉ expd w) as Hxu'. { intros H. by apply Hxu in H. }
  destruct (elem_step isW us w r u Hi Hreg Hu0 Hx Hxu' HW missing Hm Hk)
    as (w1 & a & E & R1 & T1 & U1 & D1 & C1 & G1 & X1).
  rewrite E.
  assert (idle w1 r) as Hi1.
  { destruct Hi as (_ & Hr & H0 & Hn). split; [done|]. split; [congruence|]. split; [done|]. by rewrite D1. }
  destruct (IH w1) as (w2 & l & E2 & R2 & U2 & D2 & I2 & G2 & X2).
  - done.
  - intros v Hv. destruct (Hok v) as (Hvs & Hvm & Hvr & Hv0 & Hvk & HvW); [by right|].
    assert (v <> u) as Hne by (by intros ->).
    split; [done|]. split; [done|]. split. { apply R1. split; [done|]. intros; done. }
    split; [done|]. rewrite D1. split; [done|].
    intros Hvr' c Hc. apply HvW; [done|]. destruct Hc as [Hc|Hc]; [|by right].
    apply G1 in Hc as [[? _]|[[? ?]|(_ & ? & _)]]; [by left|done|by right].
  - done.
  - intros x Hxx. apply R1. apply X1 in Hxx as [Hxx|(Hnus & Hxr & _)].
    + split; [by apply Hx|]. intros ->. done.
    + split; [done|]. intros ->. done.
  - intros x Hxx. apply X1 in Hxx as [Hxx|[? _]]; [by apply Hxu|done].
  - rewrite E2. exists w2, (a :: l). split; [done|]. rewrite U2, D2, U1, D1. rewrite D1 in R2, G2, X2.
    split.
    { intros x. rewrite R2, R1, elem_of_cons. split.
      - intros [[H1 H2] H3]. split; [done|]. intros [->|H4]; [by apply H2|by apply H3].
      - intros [H1 H2]. split; [split; [done|]|]; auto. intros ->. auto. }
    split; [done|]. split; [done|]. split; [done|]. split.
    + intros x p. rewrite G2, G1. setoid_rewrite elem_of_cons. split.
      * intros [[[[H1 H2]|[[H1 ->]|H1]] H3]|[[H1 H2]|(v & H1 & H2)]].
        -- left. tauto.
        -- right. left. tauto.
        -- right. right. exists u. tauto.
        -- right. left. tauto.
        -- right. right. exists v. tauto.
      * intros [[H1 H2]|[[H1 [->|H2]]|(v & [->|H1] & H2)]].
        -- left. split; [left|]; tauto.
        -- left. split; [|done]. right. by left.
        -- right. left. tauto.
        -- destruct (decide (x ∈ todo)) as [H3|H3].
           ++ right. left. split; [apply H2|done].
           ++ left. split; [|done]. right. by right.
        -- right. right. exists v. tauto.
    + intros x. rewrite X2, X1, R1. unfold pending in *. rewrite U1. setoid_rewrite elem_of_cons.
      assert (forall v, v ∈ todo -> neighbour_changed (wgr w1) (view r (db w)) v x <->
                neighbour_changed (wgr w) (view r (db w)) v x) as HC.
      { intros v Hv. apply changed_ext. intros q. rewrite G1. split.
        - intros [[? _]|[[_ ->]|([c ?] & _)]]; done.
        - intros H. left. split; [done|]. by intros ->. }
      split.
      * intros [[H|(H1 & H2 & H3 & H4 & H5)]|(H1 & [H2 _] & H3 & v & H4 & H5 & H6)].
        -- by left.
        -- right. split; [done|]. split; [done|]. split; [done|]. exists u. tauto.
        -- right. split; [done|]. split; [done|]. split; [done|]. exists v. rewrite <- HC by done. tauto.
      * intros [H|(H1 & H2 & H3 & v & [->|H4] & H5 & H6)].
        -- by left; left.
        -- left. right. tauto.
        -- right. split; [done|]. split; [split; [done|by intros ->]|]. split; [done|].
           exists v. rewrite HC by done. tauto.
Qed.

(** ** refresh with a list of objects *)

(** The objects of the call that are refreshed. *)
Definition refreshed (w : wsess) (us : list uid) (u : uid) : Prop :=
  u ∈ us /\ u ∈ wreg w /\ ~ pending w u.

Lemma refresh_many isW w r us :
  idle w r -> expd w ⊆ wreg w -> (forall u, refreshed w us u -> asks_ok isW w r u) ->
  exists w', refresh isW w us = (w', None) /\
    (forall x, x ∈ wreg w' <-> x ∈ wreg w /\ (refreshed w us x -> in_db (db w) r x)) /\
    ub w' = ub w /\ db w' = db w /\ idle w' r /\
    (forall x p, (x, p) ∈ wgr w' <->
       ((x, p) ∈ wgr w /\ ~ refreshed w us x) \/ ((x, p) ∈ view r (db w) /\ refreshed w us x) \/
       exists u, refreshed w us u /\ brought (db w) r u x p) /\
    (forall x, x ∈ expd w' <->
       ~ refreshed w us x /\ x ∈ wreg w /\
       (x ∈ expd w \/
        (~ pending w x /\ exists u, refreshed w us u /\ u <> r /\ neighbour_changed (wgr w) (view r (db w)) u x))).
Proof.
  intros Hi Hx Hok. destruct us as [|u0 us'].
  { exists w. assert (forall x, ~ refreshed w [] x) as Hn by (intros x [H _]; by apply elem_of_nil in H).
    split; [done|]. split. { intros x. specialize (Hn x). tauto. }
    split; [done|]. split; [done|]. split; [done|]. split.
    - intros x p. specialize (Hn x) as Hnx. split; [tauto|]. intros [?|[?|(u & H & _)]]; [tauto|tauto|by apply Hn in H].
    - intros x. specialize (Hn x) as Hnx. split; [intros H; split; [done|]; split; [by apply Hx|by left]|].
      intros (_ & _ & [?|(_ & u & H & _)]); [done|by apply Hn in H]. }
  assert (refresh isW w (u0 :: us') =
          let '(w1, ids) := expire w (list_to_set (u0 :: us')) in
          match wload isW w1 (elements ids) with (w2, Err e) => (w2, Some e) | (w2, Ok _) => (w2, None) end) as -> by done.
  set (us := u0 :: us') in *. clearbody us. unfold expire at 1.
  set (ids := (list_to_set us ∖ buids (ub w)) ∩ wreg w).
  set (w0 := set_expd w ((expd w ∪ list_to_set us ∖ buids (ub w)) ∩ wreg w)).
  assert (forall x, x ∈ elements ids <-> refreshed w us x) as HR.
  { intros x. subst ids. rewrite elem_of_elements, elem_of_intersection, elem_of_difference, elem_of_list_to_set,
      pending_buids. unfold refreshed. tauto. }
  destruct Hi as (Hc & Hr & H0 & Hn).
  unfold wload. change (wroot w0) with (wroot w). rewrite Hr.
  set (w1 := load_prelude w0 (elements ids)).
  assert (forall x, x ∈ expd w1 <-> ~ refreshed w us x /\ x ∈ wreg w /\ x ∈ expd w) as HX.
  { intros x. subst w1. unfold load_prelude. simpl.
    repeat first [rewrite elem_of_difference | rewrite elem_of_intersection | rewrite elem_of_union
                 | rewrite elem_of_list_to_set | rewrite HR | rewrite pending_buids].
    unfold refreshed. tauto. }
  destruct (loop_spec isW (list_to_set (missing_uids w0 (elements ids))) (elements ids) r (elements ids) w1)
    as (w2 & l & E & R2 & U2 & D2 & I2 & G2 & X2).
  - apply NoDup_elements.
  - intros u Hu. split; [done|]. split.
    + rewrite elem_of_list_to_set. unfold missing_uids. apply elem_of_list_filter. split; [|done].
      right. apply HR in Hu as (A & B & C). subst w0. simpl.
      rewrite elem_of_intersection, elem_of_union, elem_of_difference, elem_of_list_to_set, pending_buids. tauto.
    + apply HR in Hu. exact (Hok u Hu).
  - done.
  - intros x H. apply HX in H. tauto.
  - intros x H. apply HX in H as [H _]. by rewrite HR.
  - rewrite E. exists w2. split; [done|].
    change (wreg w1) with (wreg w) in *. change (wgr w1) with (wgr w) in *. change (db w1) with (db w) in *.
    change (ub w1) with (ub w) in *.
    split. { intros x. by rewrite R2, HR. }
    split; [done|]. split; [done|]. split; [done|]. split.
    + intros x p. rewrite G2. setoid_rewrite HR. done.
    + intros x. rewrite X2, HX. unfold pending at 1. change (ub w1) with (ub w). fold (pending w x).
      setoid_rewrite HR. unfold pending. tauto.
Qed.
