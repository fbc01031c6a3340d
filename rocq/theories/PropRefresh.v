(** Refreshing an object of which another user has changed or deleted the database
    entry (property C75): wrapper_session.py:71-111 [load], 145-158 [refresh],
    379-395 [_expire_neighour_diff], db_wrapper_session.py:137-143 on the model of
    Wrapper.v.  The backend is an arbitrary graph: nothing relates it to what the
    session holds. *)
From stdpp Require Import base sets list gmap countable.
From Verif Require Import Prelude Cuds CudsProofs Wrapper WrapperProofs
  WrapperRefine WrapperOps WrapperOps2 WrapperCommit.

(** ** Specification *)

(** Uncommitted changes of the user concern u. *)
Definition pending (w : wsess) (u : uid) : Prop :=
  u ∈ badd (ub w) \/ u ∈ bupd (ub w) \/ u ∈ bdel (ub w).

(** Graph g links u with v. *)
Definition linked (g : graph) (u v : uid) (q : rel) : Prop := (u, TLink q v) ∈ g.

(** v is a neighbour of u in one of the two graphs by a relationship by which it is
    none in the other. *)
Definition neighbour_changed (g g' : graph) (u v : uid) : Prop :=
  exists q, (linked g u v q /\ ~ linked g' u v q) \/ (linked g' u v q /\ ~ linked g u v q).

(** An idle session: used by the user (no engine code is running), connected to a
    wrapper whose uid is not used in the database. *)
Definition idle (w : wsess) (r : uid) : Prop :=
  cur w = USER /\ wroot w = Some r /\ r <> 0%N /\ no_uid r (db w).

(** ** Proofs *)

Lemma pending_buids w u : u ∈ buids (ub w) <-> pending w u.
Proof. unfold buids, pending. rewrite !elem_of_union. tauto. Qed.

Lemma refresh_one isW w r u :
  wroot w = Some r -> u ∈ wreg w -> ~ pending w u ->
  refresh isW w [u] =
    let w2 := enter_engine (set_expd w (((expd w ∪ {[u]}) ∩ wreg w) ∖ {[u]})) in
    match load_missing isW [u] u w2 with
    | (w3, Ok _) => (set_cur w3 (cur w), None)
    | (w3, Err e) => (set_cur w3 (cur w), Some e)
    end.
Proof.
  intros Hr Hu Hp. rewrite <- pending_buids in Hp. unfold refresh, expire. simpl.
  assert (({[u]} ∪ ∅) ∖ buids (ub w) = ({[u]} : gset uid)) as ->.
  { apply set_eq. intros x. rewrite elem_of_difference, elem_of_union, elem_of_singleton, elem_of_empty.
    split; [tauto|]. intros ->. tauto. }
  assert (({[u]} : gset uid) ∩ wreg w = {[u]}) as ->.
  { apply set_eq. intros x. rewrite elem_of_intersection, elem_of_singleton. split; [tauto|].
    intros ->. tauto. }
  rewrite elements_singleton.
  set (w0 := set_expd w ((expd w ∪ {[u]}) ∩ wreg w)).
  unfold wload. change (wroot w0) with (wroot w). rewrite Hr.
  assert (load_prelude w0 [u] = set_expd w (((expd w ∪ {[u]}) ∩ wreg w) ∖ {[u]})) as HL.
  { unfold load_prelude, w0, set_expd. simpl. f_equal. apply set_eq. intros x.
    rewrite !elem_of_difference, !elem_of_intersection, !elem_of_union, !elem_of_singleton, elem_of_empty.
    tauto. }
  assert (u ∈ (list_to_set (missing_uids w0 [u]) : gset uid)) as Hm.
  { rewrite elem_of_list_to_set; unfold missing_uids; apply elem_of_list_filter.
    split; [right|by left]. subst w0. simpl. clear -Hu. set_solver. }
  simpl. rewrite HL. unfold in_engine, load_next. rewrite decide_True by exact Hm.
  destruct (load_missing isW [u] u _) as [w3 [x|e]]; done.
Qed.

Section one.
  Context (isW : cls -> bool) (w : wsess) (r u : uid).
  Context (Hidle : idle w r) (Hu : u ∈ wreg w) (Hu0 : u <> 0%N) (Hp : ~ pending w u).

  Let w2 := enter_engine (set_expd w (((expd w ∪ {[u]}) ∩ wreg w) ∖ {[u]})).

  Lemma w2_same : core w2 = core w /\ ub w2 = ub w /\ db w2 = db w /\ cur w2 = ENGINE /\
    expd w2 = ((expd w ∪ {[u]}) ∩ wreg w) ∖ {[u]} /\ bdel (eb w2) = ∅ /\ badd (eb w2) = ∅ /\ bupd (eb w2) = ∅.
  Proof.
    destruct Hidle as (Hc & _). unfold w2, enter_engine. simpl. rewrite Hc.
    rewrite decide_False by done. done.
  Qed.

  Lemma refresh_found :
    (exists c, (u, TType c) ∈ view r (db w)) ->
    (u <> r -> forall c, (u, TType c) ∈ wgr w \/ (u, TType c) ∈ view r (db w) -> isW c = false) ->
    exists w', refresh isW w [u] = (w', None) /\
      wreg w' = wreg w /\ wroot w' = wroot w /\ ub w' = ub w /\ db w' = db w /\ cur w' = USER /\
      (forall x p, (x, p) ∈ wgr w' <->
        ((x, p) ∈ wgr w /\ x <> u) \/ ((x, p) ∈ view r (db w) /\ x = u) \/
        ((x, p) ∈ view r (db w) /\ (exists c, p = TType c) /\ exists q, (u, TLink q x) ∈ view r (db w))) /\
      (forall x, x ∈ expd w' <->
        x <> u /\ x ∈ wreg w /\
        (x ∈ expd w \/ (u <> r /\ neighbour_changed (wgr w) (view r (db w)) u x /\ ~ pending w x))).
  Proof.
    intros Hty Hwr. destruct Hidle as (Hcur & Hr & Hr0 & Hno).
    rewrite (refresh_one _ _ r) by done. cbv zeta. fold w2.
    destruct w2_same as (E1 & E2 & E3 & E4 & E5 & E6 & E7 & E8).
    assert (wreg w2 = wreg w) as R2 by (unfold wreg; by rewrite E1).
    assert (wgr w2 = wgr w) as G2 by (unfold wgr; by rewrite E1).
    assert (wroot w2 = Some r) as T2 by (unfold wroot; by rewrite E1).
    clearbody w2. unfold load_missing.
    destruct (load_iri_known isW w2 r u) as (w3 & EL & A1 & A2 & A3 & A4 & A5 & A6 & A7 & A8);
      [done|done|done|done|done|by rewrite E3|by rewrite E3|by rewrite G2, E3|].
    rewrite EL, R2. rewrite (bool_decide_true (u ∈ wreg w)) by done.
    rewrite (bool_decide_false (Some u = None)) by done. cbn [andb]. rewrite andb_false_l || idtac.
    rewrite G2, E3, R2 in A8.
    assert (wreg w3 = wreg w) as A1'. { rewrite A1, R2. apply set_eq. intros x. clear -Hu. set_solver. }
    assert (forall x p, (x, p) ∈ wgr w3 <->
        ((x, p) ∈ wgr w /\ x <> u) \/ ((x, p) ∈ view r (db w) /\ x = u) \/
        ((x, p) ∈ view r (db w) /\ (exists c, p = TType c) /\ exists q, (u, TLink q x) ∈ view r (db w))) as A8'.
    { intros x p. rewrite A8. tauto. }
    assert (forall x q, (u, TLink q x) ∈ wgr w3 <-> (u, TLink q x) ∈ view r (db w)) as HL.
    { intros x q. rewrite A8'. split; [|tauto]. intros [[_ ?]|[[? _]|[? _]]]; done. }
    match goal with |- context [if bool_decide (Some u <> wroot w3) then ?a else ?b] =>
      set (w4 := if bool_decide (Some u <> wroot w3) then a else b) end.
    exists (set_cur w4 (cur w)). split; [done|].
    assert (core w4 = core w3 /\ ub w4 = ub w3 /\ db w4 = db w3) as (C1 & C2 & C3).
    { subst w4. by case_match. }
    assert (forall x, x ∈ expd w4 <-> x <> u /\ x ∈ wreg w /\
        (x ∈ expd w \/ (u <> r /\ neighbour_changed (wgr w) (view r (db w)) u x /\ ~ pending w x))) as HX.
    { intros x. subst w4. rewrite A2. destruct (decide (u = r)) as [Hur|Hur]; [rewrite bool_decide_false by congruence|rewrite bool_decide_true by congruence].
      - rewrite A3, E5. subst r. clear. set_solver.
      - unfold expire. simpl. rewrite A1', A3, E5, A4, E2.
        rewrite elem_of_intersection, elem_of_union, !elem_of_difference. rewrite elem_of_intersection, elem_of_union,
          !elem_of_singleton, elem_of_map, (pending_buids w).
        setoid_rewrite elem_of_union. setoid_rewrite elem_of_difference.
        assert ((exists y : rel * uid, x = y.2 /\ ((y ∈ links (wgr w3) u /\ y ∉ links (wgr w2) u) \/
                   (y ∈ links (wgr w2) u /\ y ∉ links (wgr w3) u))) <->
                neighbour_changed (wgr w) (view r (db w)) u x) as ->.
        { unfold neighbour_changed, linked. rewrite G2. split.
          - intros ([q y] & -> & H). simpl. exists q. rewrite !elem_links in H. rewrite !HL in H. tauto.
          - intros (q & H). exists (q, x). split; [done|]. rewrite !elem_links, !HL. tauto. }
        rewrite elem_of_empty, ?elem_of_singleton. split.
        + intros [[H|H] Hx]; [tauto|]. split; [intros ->; tauto|]. split; [done|]. right.
          split; [done|tauto].
        + intros (H1 & H2 & [H|(H3 & H4 & H5)]); [tauto|]. tauto.
      }
    clearbody w4. unfold wreg, wroot, wgr in *. simpl. rewrite C1, C2, C3.
    split; [done|]. split; [congruence|]. split; [congruence|]. split; [congruence|]. split; [done|].
    split; [done|exact HX].
  Qed.

  Lemma refresh_gone :
    u <> r -> (forall p, (u, p) ∉ view r (db w)) ->
    exists w', refresh isW w [u] = (w', None) /\
      wreg w' = wreg w ∖ {[u]} /\ wroot w' = wroot w /\ ub w' = ub w /\ db w' = db w /\ cur w' = USER /\
      (forall x p, (x, p) ∈ wgr w' <-> (x, p) ∈ wgr w /\ x <> u) /\
      (forall x, x ∈ expd w' <->
        x <> u /\ x ∈ wreg w /\ (x ∈ expd w \/ ((exists q, linked (wgr w) u x q) /\ ~ pending w x))).
  Proof.
    intros Hur Hgone. destruct Hidle as (Hcur & Hr & Hr0 & Hno).
    rewrite (refresh_one _ _ r) by done. cbv zeta. fold w2.
    destruct w2_same as (E1 & E2 & E3 & E4 & E5 & E6 & E7 & E8).
    assert (wreg w2 = wreg w) as R2 by (unfold wreg; by rewrite E1).
    assert (wgr w2 = wgr w) as G2 by (unfold wgr; by rewrite E1).
    assert (wroot w2 = Some r) as T2 by (unfold wroot; by rewrite E1).
    clearbody w2. unfold load_missing.
    rewrite (load_iri_unknown isW w2 r u); [|done|done|done|by rewrite E3|by rewrite E3].
    rewrite R2. rewrite (bool_decide_true (u ∈ wreg w)) by done. rewrite T2.
    rewrite (bool_decide_true (Some u <> Some r)) by congruence.
    rewrite (bool_decide_true ((None : option uid) = None)) by done. cbn [andb].
    set (w4 := fst (expire w2 _)).
    assert (core w4 = core w /\ ub w4 = ub w /\ db w4 = db w /\ cur w4 = ENGINE /\ eb w4 = eb w2) as (C1 & C2 & C3 & C4 & C5).
    { subst w4. simpl. done. }
    assert (forall x, x ∈ expd w4 <-> x <> u /\ x ∈ wreg w /\
        (x ∈ expd w \/ ((exists q, linked (wgr w) u x q) /\ ~ pending w x))) as HX.
    { intros x. subst w4. unfold expire. simpl. rewrite R2, E5, E2.
      rewrite elem_of_intersection, elem_of_union, !elem_of_difference, elem_of_intersection, elem_of_union,
          !elem_of_singleton, elem_of_map, (pending_buids w).
      assert ((exists y : rel * uid, x = y.2 /\ y ∈ (∅ ∖ links (wgr w2) u ∪ links (wgr w2) u ∖ ∅ : gset (rel * uid))) <->
                exists q, linked (wgr w) u x q) as ->.
      { unfold linked. rewrite G2. split.
        - intros ([q y] & -> & H). simpl. exists q. apply elem_links. clear -H. set_solver.
        - intros (q & H). exists (q, x). split; [done|]. apply elem_links in H. clear -H. set_solver. }
      rewrite elem_of_union, elem_of_empty, ?elem_of_singleton. split.
      - intros [[H|H] Hx]; [tauto|]. split; [intros ->; tauto|]. split; [done|]. right. tauto.
      - intros (H1 & H2 & [H|(H3 & H4)]); tauto. }
    clearbody w4.
    assert (wreg w4 = wreg w) as R4 by (unfold wreg; by rewrite C1).
    rewrite (bool_decide_true (u ∈ wreg w4)) by (by rewrite R4).
    unfold w_delete_triples, delete_triples. change (reg (core w4)) with (wreg w4).
    rewrite decide_True by (by rewrite R4).
    eexists. split; [done|]. unfold notify_delete, cur_buf, set_cur_buf.
    unfold wreg, wroot, wgr in *. simpl. rewrite C4, C1. 
    assert (forall b c, (set_cur (if decide (u ∈ badd b) then c else c) (cur w) = set_cur c (cur w))) as _
      by (intros; by case_match).
    repeat case_decide; simpl; rewrite ?R4, ?C1, ?C2, ?C3;
      (split; [done|]; split; [done|]; split; [done|]; split; [done|]; split; [done|]; split;
       [intros x p; rewrite elem_of_filter; simpl; tauto|exact HX]).
  Qed.
End one.

(** ** Theorems *)

(** The database still has u: afterwards u has exactly the database's triples, every
    other object keeps its triples (a class that the database knows may be added to
    objects that u links to), and the objects that will be read again on their next
    use are those marked before, without u, and the loaded objects without
    uncommitted changes that became or ceased to be neighbours of u (none if u is
    the wrapper). *)
Theorem C75_refresh isW w r u :
  idle w r -> u ∈ wreg w -> u <> 0%N -> ~ pending w u ->
  (exists c, (u, TType c) ∈ view r (db w)) ->
  (u <> r -> forall c, (u, TType c) ∈ wgr w \/ (u, TType c) ∈ view r (db w) -> isW c = false) ->
  exists w', refresh isW w [u] = (w', None) /\
    wreg w' = wreg w /\ ub w' = ub w /\ db w' = db w /\ idle w' r /\
    (forall p, (u, p) ∈ wgr w' <-> (u, p) ∈ view r (db w)) /\
    (forall x p, x <> u -> (x, p) ∈ wgr w -> (x, p) ∈ wgr w') /\
    (forall x p, x <> u -> (x, p) ∈ wgr w' -> (x, p) ∈ wgr w \/
       ((exists c, p = TType c) /\ (x, p) ∈ view r (db w) /\ exists q, linked (view r (db w)) u x q)) /\
    (forall x, x ∈ expd w' <->
       x <> u /\ x ∈ wreg w /\
       (x ∈ expd w \/ (u <> r /\ neighbour_changed (wgr w) (view r (db w)) u x /\ ~ pending w x))).
Proof.
  intros Hi Hu Hu0 Hp Hty Hwr.
  destruct (refresh_found isW w r u Hi Hu Hu0 Hp Hty Hwr) as (w' & E & R & T & U & D & C & G & X).
  exists w'. split; [done|]. split; [done|]. split; [done|]. split; [done|]. split.
  { destruct Hi as (_ & Hr & H0 & Hn). split; [done|]. split; [congruence|]. split; [done|]. by rewrite D. }
  split. { intros p. rewrite G. split; [|tauto]. intros [[_ ?]|[[? _]|[? _]]]; done. }
  split. { intros x p Hx H. apply G. tauto. }
  split; [|exact X].
  intros x p Hx H. apply G in H as [[? _]|[[_ ?]|(? & ? & ?)]]; [by left|done|by right].
Qed.

(** Another user has deleted u: it is taken out of the session, its links with it,
    and its loaded former neighbours without uncommitted changes will be read again.
    Nothing else changes. *)
Theorem C75_refresh_deleted isW w r u :
  idle w r -> u ∈ wreg w -> u <> 0%N -> u <> r -> ~ pending w u ->
  (forall p, (u, p) ∉ view r (db w)) ->
  exists w', refresh isW w [u] = (w', None) /\
    wreg w' = wreg w ∖ {[u]} /\ ub w' = ub w /\ db w' = db w /\ idle w' r /\
    (forall p, (u, p) ∉ wgr w') /\
    (forall x p, x <> u -> (x, p) ∈ wgr w' <-> (x, p) ∈ wgr w) /\
    (forall x, x ∈ expd w' <->
       x <> u /\ x ∈ wreg w /\ (x ∈ expd w \/ ((exists q, linked (wgr w) u x q) /\ ~ pending w x))).
Proof.
  intros Hi Hu Hu0 Hur Hp Hg.
  destruct (refresh_gone isW w r u Hi Hu Hu0 Hp Hur Hg) as (w' & E & R & T & U & D & C & G & X).
  exists w'. split; [done|]. split; [done|]. split; [done|]. split; [done|]. split.
  { destruct Hi as (_ & Hr & H0 & Hn). split; [done|]. split; [congruence|]. split; [done|]. by rewrite D. }
  split. { intros p H. by apply G in H as [_ ?]. }
  split; [|exact X]. intros x p Hx. rewrite G. tauto.
Qed.

(** An object that is not loaded or has uncommitted changes is not refreshed. *)
Theorem C75_not_refreshed isW w r u :
  wroot w = Some r -> expd w ⊆ wreg w -> u ∉ wreg w \/ pending w u ->
  refresh isW w [u] = (w, None).
Proof.
  intros Hr Hx H. rewrite <- pending_buids in H. unfold refresh, expire. simpl.
  assert ((({[u]} ∪ ∅) ∖ buids (ub w)) ∩ wreg w = (∅ : gset uid)) as ->.
  { apply set_eq. intros x. rewrite elem_of_intersection, elem_of_difference, elem_of_union, elem_of_singleton, elem_of_empty.
    split; [|done]. intros [[[->|?] ?] ?]; tauto. }
  rewrite elements_empty. unfold wload. change (wroot (set_expd w _)) with (wroot w). rewrite Hr.
  simpl. unfold load_prelude. simpl. f_equal. destruct w as [s c ubs ebs xs d]. unfold set_expd. simpl in *. f_equal.
  apply set_eq. intros x. rewrite elem_of_difference, !elem_of_intersection, elem_of_union, elem_of_difference,
    elem_of_union, elem_of_singleton, elem_of_empty. unfold wreg in *. simpl in *.
  split.
  - intros [[[?|[[->|?] ?]] ?] _]; tauto.
  - intros Hin. split; [|tauto]. split; [by left|]. by apply Hx.
Qed.

(** No link to a deleted object is left after the next use of its neighbour: v was a
    neighbour of u, and the database mentions u no more. *)
Theorem C75_neighbour_follows isW w r u v q :
  idle w r -> u ∈ wreg w -> u <> 0%N -> u <> r -> ~ pending w u ->
  (forall p, (u, p) ∉ view r (db w)) -> (forall x q', ~ linked (view r (db w)) x u q') ->
  v ∈ wreg w -> v <> u -> v <> 0%N -> linked (wgr w) u v q -> ~ pending w v ->
  (exists c, (v, TType c) ∈ view r (db w)) ->
  (v <> r -> forall c, (v, TType c) ∈ wgr w \/ (v, TType c) ∈ view r (db w) -> isW c = false) ->
  exists w1 w2, refresh isW w [u] = (w1, None) /\ v ∈ expd w1 /\
    notify_read isW w1 v = (w2, None) /\ v ∉ expd w2 /\
    (forall p, (v, p) ∈ wgr w2 <-> (v, p) ∈ view r (db w)) /\
    forall q', ~ linked (wgr w2) v u q'.
Proof.
  intros Hi Hu Hu0 Hur Hp Hg Hl Hv Hvu Hv0 Hlk Hpv Hty Hwr.
  destruct (C75_refresh_deleted isW w r u Hi Hu Hu0 Hur Hp Hg) as (w1 & E & R & U & D & I1 & G1 & G2 & X).
  assert (v ∈ expd w1) as Hx1. { apply X. split; [done|]. split; [done|]. right. split; [by exists q|done]. }
  destruct (C75_refresh isW w1 r v I1) as (w2 & E2 & R2 & U2 & D2 & I2 & H1 & H2 & H3 & H4).
  - rewrite R. clear -Hv Hvu. set_solver.
  - done.
  - unfold pending in *. by rewrite U.
  - by rewrite D.
  - rewrite D. intros Hne c Hc. apply Hwr; [done|]. rewrite <- (G2 v (TType c)) by done. exact Hc.
  - exists w1, w2. split; [done|]. split; [done|]. unfold notify_read. rewrite decide_True by done.
    split; [done|]. split. { intros H. by apply H4 in H as [? _]. }
    rewrite D in H1. split; [exact H1|]. intros q' H. unfold linked in H. apply H1 in H. by apply (Hl v q').
Qed.

(** ** A concrete case: the wrapper 1 has the cities 2 and 3, 2 has the citizen 4;
    another user has deleted 2 and moved 4 to 3 *)
Definition ex_rel : rel := 10%N.
Definition ex_inv : rel := 11%N.
Definition ex_db : graph := list_to_set
  [(0, TType 20); (0, TLink ex_rel 3); (3, TType 21); (3, TLink ex_inv 0); (3, TLink ex_rel 4);
   (4, TType 22); (4, TLink ex_inv 3); (4, TAttr 30 (7, 0))]%N.
Definition ex_gr : graph := list_to_set
  [(1, TType 20); (1, TLink ex_rel 2); (1, TLink ex_rel 3);
   (2, TType 21); (2, TLink ex_inv 1); (2, TLink ex_rel 4);
   (3, TType 21); (3, TLink ex_inv 1);
   (4, TType 22); (4, TLink ex_inv 2); (4, TAttr 30 (6, 0))]%N.
Definition ex_w (b : bufs) : wsess :=
  WSess (Sess (list_to_set [1; 2; 3; 4])%N ex_gr (Some 1%N)) USER b no_bufs ∅ ex_db.
Definition ex_isW (c : cls) : bool := (c =? 20)%N.

Lemma ex_idle b : idle (ex_w b) 1%N.
Proof.
  split; [done|]. split; [done|]. split; [done|]. intros x p H. simpl in H. unfold ex_db in H.
  apply elem_of_list_to_set in H. split.
  - intros ->. repeat (apply elem_of_cons in H as [H|H]; [discriminate|]). by apply elem_of_nil in H.
  - intros q ->. repeat (apply elem_of_cons in H as [H|H]; [discriminate|]). by apply elem_of_nil in H.
Qed.

Example C75_example :
  idle (ex_w no_bufs) 1%N /\
  (* refreshing 2, which is gone: 1 and 4 will be read again, not 3 *)
  (let w1 := fst (refresh ex_isW (ex_w no_bufs) [2%N]) in
   bool_decide (wreg w1 = list_to_set [1; 3; 4]%N) && bool_decide (expd w1 = list_to_set [1; 4]%N) = true /\
   (* then reading 4: it is in 3, has the new value, and 3 will be read again *)
   let w2 := fst (notify_read ex_isW w1 4%N) in
   bool_decide (triples_of (wgr w2) 4%N = list_to_set [(4, TType 22); (4, TLink ex_inv 3); (4, TAttr 30 (7, 0))]%N)
   && bool_decide (expd w2 = list_to_set [1; 3]%N) = true) /\
  (* with uncommitted changes of 4, it is left alone *)
  (let w1 := fst (refresh ex_isW (ex_w (Bufs ∅ {[4%N]} ∅)) [2%N]) in
   bool_decide (expd w1 = {[1%N]}) = true).
Proof. split; [apply ex_idle|]. vm_compute. auto. Qed.

Print Assumptions C75_refresh.
Print Assumptions C75_refresh_deleted.
Print Assumptions C75_not_refreshed.
Print Assumptions C75_neighbour_follows.
Print Assumptions C75_example.
