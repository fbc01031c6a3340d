(** Theorems about commit, its failures and reconnecting (properties C28, C29, C31)
    and further theorems for C27, C30. *)
From stdpp Require Import base sets list gmap countable.
From Verif Require Import Prelude Cuds CudsProofs PropCuds Wrapper WrapperProofs
  WrapperRefine WrapperOps WrapperOps2 WrapperCommit PropWrapper.

(** * C28 commit *)

(** [view r d] is the backend's content with the zero uid, which stands for the
    root in the backend, replaced by the session's root r.
    After commit() the backend holds exactly the session's triples of all added and
    updated objects, nothing of the deleted ones, and its old triples of all other
    objects; the buffers are empty and the session's content is unchanged. *)
Theorem C28_commit isW O d r w :
  involutive O -> (forall q, o_sub O q (o_relationship O) = true) ->
  served isW O d r w -> root_kept r w ->
  exists w', w_commit None w = (w', None) /\
    (forall u, u ∈ badd (ub w) \/ u ∈ bupd (ub w) ->
       triples_of (view r (db w')) u = triples_of (wgr w) u) /\
    (forall u, u ∈ bdel (ub w) -> triples_of (view r (db w')) u = ∅) /\
    (forall u, u ∉ badd (ub w) -> u ∉ bupd (ub w) -> u ∉ bdel (ub w) ->
       triples_of (view r (db w')) u = triples_of (view r (db w)) u) /\
    ub w' = no_bufs /\ core w' = core w /\ cur w' = cur w.
Proof.
  intros Hivl Hall Hs Hk. destruct (served_inv _ _ _ _ _ Hivl Hall Hs) as [Hw Hi].
  destruct (w_commit_spec isW w r Hw Hk) as (w' & E & Hw' & _ & C & U & D & _).
  pose proof (winv_commit_ok _ _ _ Hw) as Hok.
  pose proof (fun x p => elem_committed_gen w r x p Hok) as Hel.
  assert (forall u p, u ∈ badd (ub w) -> (u, p) ∈ view r (db w) -> (u, p) ∈ wgr w) as Hadd.
  { intros u p Hu Hp. destruct (decide (u = r)) as [->|Hne]; [by apply Hk|].
    destruct (wi_add _ _ _ Hw u Hu) as [_ H]. by destruct (H Hne p). }
  exists w'. split; [done|]. rewrite D. split; [|split; [|split]].
  - intros u Hu. apply set_eq. intros [x p]. rewrite !elem_triples_of. cbn [fst].
    assert (u ∉ bdel (ub w)) as Hnd.
    { intros Hd. destruct (wi_del _ _ _ Hw u Hd) as [Hr' _].
      destruct Hu as [Hu|Hu]; [by apply (wi_add _ _ _ Hw) in Hu as [? _]|by apply (wi_upd _ _ _ Hw) in Hu as [? _]]. }
    split; intros [Hin ->]; (split; [|done]).
    + apply Hel in Hin as [_ [[_ ?]|[Hnu [Hin|[_ ?]]]]]; try done.
      destruct Hu as [Hu|Hu]; [by apply Hadd|].
      done.
    + apply Hel. split; [done|].
      destruct (decide (u ∈ bupd (ub w))) as [Hup|Hup]; [by left|]. right. split; [done|]. right.
      destruct Hu; done.
  - intros u Hu. apply set_eq. intros [x p]. rewrite elem_triples_of. cbn [fst].
    split; [|intros H; by apply not_elem_of_empty in H].
    intros [Hin ->]. apply Hel in Hin as [Hn _]; done.
  - intros u Ha Hu Hd. apply set_eq. intros [x p]. rewrite !elem_triples_of. cbn [fst].
    split; intros [Hin ->]; (split; [|done]).
    + apply Hel in Hin as [_ [[? _]|[_ [?|[? _]]]]]; done.
    + apply Hel. split; [done|]. right. split; [done|]. by left.
  - split; [done|]. split; [done|]. rewrite (wi_cur _ _ _ Hw'). by rewrite (wi_cur _ _ _ Hw).
Qed.

(** The backend as a whole: it then shows exactly what the session shows. *)
Theorem C28_backend_is_session isW O d r w :
  involutive O -> (forall q, o_sub O q (o_relationship O) = true) ->
  served isW O d r w -> root_kept r w ->
  view r (db (fst (w_commit None w))) = gr (abs w) /\ abs (fst (w_commit None w)) = abs w.
Proof.
  intros Hivl Hall Hs Hk. destruct (served_inv _ _ _ _ _ Hivl Hall Hs) as [Hw Hi].
  by destruct (w_commit_spec isW w r Hw Hk) as (w' & -> & _ & ? & _ & _ & _ & ? & _).
Qed.

(** In every history, with a backend changed by others in any way (that does not
    use the root's uid) and with objects constructed again under the uid of a
    deleted object, the same holds except that old triples of added objects stay. *)
Theorem C28_commit_any isW O r w :
  whist isW O w -> wroot w = Some r -> r ∈ wreg w -> no_uid r (db w) -> 0%N ∉ bdel (ub w) ->
  exists w', w_commit None w = (w', None) /\
    (forall u, u ∈ bupd (ub w) -> triples_of (view r (db w')) u = triples_of (wgr w) u) /\
    (forall u, u ∈ badd (ub w) ->
       triples_of (view r (db w')) u = triples_of (view r (db w)) u ∪ triples_of (wgr w) u) /\
    (forall u, u ∈ bdel (ub w) -> triples_of (view r (db w')) u = ∅) /\
    (forall u, u ∉ badd (ub w) -> u ∉ bupd (ub w) -> u ∉ bdel (ub w) ->
       triples_of (view r (db w')) u = triples_of (view r (db w)) u) /\
    ub w' = no_bufs /\ core w' = core w /\ cur w' = cur w.
Proof.
  intros Hh Hr Hrr Hno Hd0. pose proof (whist_ok _ _ _ Hh) as Hb.
  destruct (bo_nz _ Hb) as [N1 N2 N3]. destruct (bo_inv _ Hb) as [B1 B2 B3 B4 B5 B6].
  assert (commit_ok r w) as Hok.
  { constructor; [by intros ->|done|done|]. unfold buids. rewrite !not_elem_of_union.
    split_and!; [intros H; by apply B1 in H|intros H; by apply B2 in H|done]. }
  pose proof (fun x p => elem_committed_gen w r x p Hok) as Hel.
  destruct (enter_engine_same w) as (E1 & E2 & E3 & E4 & E5).
  exists (set_cur (expire_all (set_db (set_ub (enter_engine w) no_bufs) (committed r w))) (cur w)).
  split.
  { unfold w_commit, in_engine. set (w0 := enter_engine w) in *. clearbody w0.
    assert (wroot w0 = Some r) as -> by (unfold wroot; by rewrite E1).
    assert (wreg w0 = wreg w) as -> by (unfold wreg; by rewrite E1).
    assert (wgr w0 = wgr w) as -> by (unfold wgr; by rewrite E1).
    rewrite decide_True by done. unfold committed. by rewrite E2, E4. }
  set (d' := db (set_cur _ _)). assert (d' = committed r w) as -> by done.
  split; [|split; [|split; [|split; [|split; [done|split; [by rewrite <- E1|done]]]]]].
  - intros u Hu. apply set_eq. intros [x p]. rewrite !elem_triples_of. cbn [fst].
    split; intros [Hin ->]; (split; [|done]).
    + apply Hel in Hin as [_ [[_ ?]|[? _]]]; done.
    + apply Hel. split; [intros H; by apply (B5 u)|by left].
  - intros u Hu. apply set_eq. intros [x p]. rewrite elem_of_union, !elem_triples_of. cbn [fst].
    split.
    + intros [Hin ->]. apply Hel in Hin as [_ [[? _]|[_ [?|[_ ?]]]]]; [|tauto..].
      by destruct (B3 u).
    + intros Hin. assert (x = u) as -> by tauto. split; [|done].
      apply Hel. split; [intros H; by apply (B4 u)|]. right.
      split; [intros H; by apply (B3 u)|]. tauto.
  - intros u Hu. apply set_eq. intros [x p]. rewrite elem_triples_of. cbn [fst].
    split; [|intros H; by apply not_elem_of_empty in H].
    intros [Hin ->]. apply Hel in Hin as [Hn _]; done.
  - intros u Ha Hu Hd. apply set_eq. intros [x p]. rewrite !elem_triples_of. cbn [fst].
    split; intros [Hin ->]; (split; [|done]).
    + apply Hel in Hin as [_ [[? _]|[_ [?|[? _]]]]]; done.
    + apply Hel. split; [done|]. right. split; [done|]. by left.
Qed.

(** A second commit does nothing, in every state after a successful commit. *)
Theorem C28_commit_twice w w' :
  w_commit None w = (w', None) ->
  exists w'', w_commit None w' = (w'', None) /\ db w'' = db w' /\ core w'' = core w' /\
    ub w'' = ub w' /\ ub w' = no_bufs /\ expd w'' = expd w' /\ cur w'' = cur w'.
Proof.
  assert (forall w r, wroot w = Some r -> r ∈ wreg w ->
    w_commit None w = (set_cur (expire_all (set_db (set_ub (enter_engine w) no_bufs) (committed r w))) (cur w), None))
    as Hc.
  { intros v r Hr Hin. destruct (enter_engine_same v) as (E1 & E2 & E3 & E4 & E5).
    unfold w_commit, in_engine. set (w0 := enter_engine v) in *. clearbody w0.
    assert (wroot w0 = Some r) as -> by (unfold wroot; by rewrite E1).
    assert (wreg w0 = wreg v) as -> by (unfold wreg; by rewrite E1).
    assert (wgr w0 = wgr v) as -> by (unfold wgr; by rewrite E1).
    rewrite decide_True by done. unfold committed. by rewrite E2, E4. }
  intros E. destruct (wroot w) as [r|] eqn:Er.
  2: { unfold w_commit, in_engine in E. destruct (enter_engine_same w) as (E1 & _).
       assert (wroot (enter_engine w) = None) as H by (unfold wroot in *; by rewrite E1).
       rewrite H in E. done. }
  destruct (decide (r ∈ wreg w)) as [Hin|Hin].
  2: { unfold w_commit, in_engine in E. destruct (enter_engine_same w) as (E1 & _).
       assert (wroot (enter_engine w) = Some r) as H by (unfold wroot in *; by rewrite E1).
       assert (wreg (enter_engine w) = wreg w) as H' by (unfold wreg in *; by rewrite E1).
       rewrite H, H' in E. rewrite decide_False in E by done. done. }
  rewrite (Hc w r Er Hin) in E. injection E as <-.
  destruct (enter_engine_same w) as (E1 & E2 & E3 & E4 & E5).
  match goal with |- context [w_commit None ?v] => set (v1 := v) end.
  assert (core v1 = core w) as C1 by (subst v1; by rewrite <- E1).
  assert (ub v1 = no_bufs) as U1 by done.
  assert (expd v1 = wreg w) as X1.
  { subst v1. unfold expire_all, expire. cbn. unfold buids. cbn.
    change (wreg (set_db (set_ub (enter_engine w) no_bufs) (committed r w))) with (reg (core (enter_engine w))).
    rewrite E1. change (reg (core w)) with (wreg w). clear. set_solver. }
  clearbody v1.
  rewrite (Hc v1 r) by (unfold wroot, wreg in *; by rewrite C1).
  destruct (enter_engine_same v1) as (F1 & F2 & F3 & F4 & F5).
  set (v0 := enter_engine v1) in *. clearbody v0.
  eexists. split; [done|]. split_and!.
  - change (committed r v1 = db v1). unfold committed. by rewrite U1.
  - change (core v0 = core v1). done.
  - by rewrite U1.
  - done.
  - unfold expire_all, expire. cbn. unfold buids. cbn.
    change (wreg (set_db (set_ub v0 no_bufs) (committed r v1))) with (reg (core v0)).
    rewrite F1, F3, X1, C1. change (reg (core w)) with (wreg w). clear. set_solver.
  - done.
Qed.

(** ** Reconnecting *)

(** rename r r2: r's role is taken over by r2. *)
Definition rename (r r2 : uid) (x : uid) : uid := if decide (x = r) then r2 else x.

(** A new session, with a root under any new uid r2 of any wrapper class, that is
    connected to the backend after a commit shows exactly what the old session
    showed, with its own root in the place of the old one. *)
Theorem C28_reconnect isW O d r w r2 c attrs order :
  involutive O -> (forall q, o_sub O q (o_relationship O) = true) ->
  served isW O d r w -> root_kept r w ->
  r2 <> 0%N -> (forall p, (r2, p) ∉ gr (abs w)) -> r2 ∉ reg (abs w) -> isW c = true ->
  let d' := db (fst (w_commit None w)) in
  (forall u, u ∈ order <-> u ∈ first_level r2 d') ->
  exists w2, w_create isW order (w_empty d') r2 c attrs = (w2, None) /\
    connects isW O d' r2 w2 /\
    (forall x p, x <> r2 -> (forall q, p <> TLink q r2) ->
       (x, p) ∈ gr (abs w) <-> (rename r r2 x, map_po (rename r r2) p) ∈ gr (abs w2)) /\
    (forall x p, (x, p) ∈ gr (abs w2) -> exists x' p', (x', p') ∈ gr (abs w) /\
       x = rename r r2 x' /\ p = map_po (rename r r2) p') /\
    db w2 = d' /\ bupd (ub w2) = ∅ /\ bdel (ub w2) = ∅.
Proof.
  intros Hivl Hall Hs Hk Hr2 Hnew Hnreg Hc. destruct (served_inv _ _ _ _ _ Hivl Hall Hs) as [Hw Hi].
  pose proof (wi_r0 _ _ _ Hw) as Hr0.
  destruct (w_commit_spec isW w r Hw Hk) as (w' & -> & Hw' & Ha & _ & _ & D & V & _). cbn zeta. cbn [fst].
  intros Ho. pose proof (committed_good _ _ _ Hw Hk) as Hg. rewrite <- D in Hg.
  pose proof (committed_no_uid _ _ _ Hw) as Hno. rewrite <- D in Hno.
  set (d' := db w') in *. clearbody d'.
  (* d' in terms of what the session shows *)
  assert (forall x p, (x, p) ∈ d' <->
     exists x' p', (x', p') ∈ gr (abs w) /\ x = sub_root r x' /\ p = map_po (sub_root r) p') as Hd.
  { intros x p. split.
    - intros Hin. destruct (Hno _ _ Hin) as [H1 H2]. exists (sub_zero r x), (map_po (sub_zero r) p).
      rewrite <- V. split; [|by rewrite sub_root_zero, map_po_root_zero].
      apply elem_view. eauto.
    - intros (x' & p' & Hin & -> & ->). rewrite <- V in Hin. apply elem_view_inv in Hin; tauto. }
  assert (forall x q v, (x, TLink q v) ∈ gr (abs w) -> v <> r2) as Hnl.
  { intros x q v Hin ->. by apply (wi_tclosed _ _ _ Hw) in Hin. }
  assert (forall x p, (x, p) ∈ gr (abs w) -> x <> 0%N /\ po_nz p) as Hnz.
  { intros x p Hin. rewrite <- V in Hin. apply elem_view_inv in Hin; tauto. }
  assert (no_uid r2 d') as Hno2.
  { intros x p Hin. apply Hd in Hin as (x' & p' & Hin & -> & ->). split.
    - unfold sub_root. case_decide; [done|]. intros ->. by apply Hnew in Hin.
    - intros q Heq. destruct p' as [q' v| |]; simpl in Heq; [|done..].
      injection Heq as _ Heq. revert Heq. unfold sub_root.
      case_decide; [by intros Heq; apply Hr2|]. intros Heq. by destruct (Hnl _ _ _ Hin). }
  assert (forall a q b, (a, TLink q b) ∈ d' -> (b, TLink (o_inv O q) a) ∈ d') as Hbi.
  { intros a q b Hin. apply Hd in Hin as (x' & p' & Hin & -> & Heq).
    destruct p' as [q' v| |]; simplify_eq/=. apply Hd. exists v, (TLink (o_inv O q') x').
    split; [|done]. destruct Hi as [Hi _]. exact (proj1 (Hi _ _ _) Hin). }
  destruct (connect_spec isW d' r2 c attrs Hr2 Hno2 Hg Hc order Ho)
    as (w2 & E & Hw2 & G & R & D2 & U2 & K2 & _).
  exists w2. split; [done|].
  assert (connects isW O d' r2 w2) as Hcon.
  { constructor; [done| |done|].
    - intros a q b. split; [apply Hbi|]. intros H. apply Hbi in H. by rewrite Hivl in H.
    - exists order, c, attrs. done. }
  split; [done|].
  assert (gr (abs w2) = view r2 d') as Hv2.
  { destruct (connects_inv _ _ _ _ _ Hcon) as (_ & _ & _ & _ & _ & _ & H & _).
    destruct (wi_typed _ _ _ Hw r) as [c0 Hc0].
    { apply (elem_abs_reg w r); [apply Hw|]. left. apply Hw. }
    apply (H (TType c0)). apply Hd. exists r, (TType c0). split; [done|].
    unfold sub_root. by rewrite decide_True. }
  assert (forall x, x <> 0%N -> x <> r2 -> sub_zero r2 (sub_root r x) = rename r r2 x) as Hren.
  { intros x Hx Hx2. unfold sub_zero, sub_root, rename. repeat case_decide; congruence. }
  assert (forall p, po_nz p -> (forall q, p <> TLink q r2) ->
            map_po (sub_zero r2) (map_po (sub_root r) p) = map_po (rename r r2) p) as Hrenp.
  { intros [q v| |] Hp Hp2; simpl; try done. rewrite Hren; [done|..].
    - intros ->. by apply (Hp q).
    - intros ->. by apply (Hp2 q). }
  assert (forall x p, (x, p) ∈ gr (abs w) -> x <> r2 /\ forall q, p <> TLink q r2) as Hne.
  { intros x p Hin. split; [intros ->; by apply Hnew in Hin|]. intros q ->. by apply Hnl in Hin. }
  assert (forall x p, (x, p) ∈ gr (abs w2) <-> exists x' p', (x', p') ∈ gr (abs w) /\
       x = rename r r2 x' /\ p = map_po (rename r r2) p') as Hall2.
  { intros x p. rewrite Hv2, elem_view. split.
    - intros (y & q & Hin & -> & ->). apply Hd in Hin as (x' & p' & Hin & -> & ->).
      destruct (Hnz _ _ Hin), (Hne _ _ Hin). exists x', p'. split; [done|]. by rewrite Hren, Hrenp.
    - intros (x' & p' & Hin & -> & ->). destruct (Hnz _ _ Hin), (Hne _ _ Hin).
      exists (sub_root r x'), (map_po (sub_root r) p'). split; [apply Hd; eauto|].
      by rewrite Hren, Hrenp. }
  split; [|split; [|split; [done|by rewrite U2]]].
  - intros x p Hx Hp. rewrite Hall2. split; [eauto|].
    intros (x' & p' & Hin & Ex & Ep). destruct (Hne _ _ Hin) as [Hx' Hp'].
    assert (forall y y', y <> r2 -> y' <> r2 -> rename r r2 y = rename r r2 y' -> y = y') as Hinj.
    { intros y y' H1 H2. unfold rename. repeat case_decide; congruence. }
    assert (x = x') as -> by (apply Hinj; done).
    assert (p = p') as ->; [|done].
    destruct p as [q v| |], p' as [q' v'| |]; simplify_eq/=; try done.
    f_equal. apply Hinj; [intros ->; by apply (Hp q')|intros ->; by apply (Hp' q')|done].
  - intros x p Hin. by apply Hall2.
Qed.

Local Opaque exW0 exW1 w_commit wrun.
(** The hypotheses are met by the example session of PropWrapper (pending update of
    an attribute, deletion and unlinking), also after it has been connected to an
    existing backend. *)
Example C28_example :
  served exW exO exDb 10%N exW1 /\ root_kept 10%N exW1 /\
  bdel (ub exW1) = {[22%N]} /\ 21%N ∈ bupd (ub exW1) /\
  (21%N, TAttr 30%N (2%N, 2%N)) ∈ db (fst (w_commit None exW1)) /\
  (21%N, TAttr 30%N (1%N, 1%N)) ∉ db (fst (w_commit None exW1)) /\
  (21%N, TLink 5%N 22%N) ∉ db (fst (w_commit None exW1)) /\
  (21%N, TLink 2%N 0%N) ∈ db (fst (w_commit None exW1)) /\
  (22%N, TType 4%N) ∉ db (fst (w_commit None exW1)).
Proof.
  split; [apply exW1_served|]. split.
  { intros Hb. assert (10%N ∉ badd (ub exW1)) as Hn by dec. destruct (Hn Hb). }
  split_and!; dec.
Qed.
(** ... and reconnecting with root 50. *)
Example C28_reconnect_example :
  exists w2, connects exW exO (db (fst (w_commit None exW1))) 50%N w2 /\
    (50%N, TLink 1%N 21%N) ∈ gr (abs w2) /\ (21%N, TLink 2%N 50%N) ∈ gr (abs w2) /\
    (21%N, TAttr 30%N (2%N, 2%N)) ∈ gr (abs w2) /\ (50%N, TType 9%N) ∈ gr (abs w2).
Proof.
  destruct (C28_reconnect exW exO exDb 10%N exW1 50%N 9%N [] (elements (first_level 50%N (db (fst (w_commit None exW1))))))
    as (w2 & E & Hc & Hf & _).
  - apply exO_involutive.
  - exact (fun q => exO_covers q).
  - apply exW1_served.
  - apply C28_example.
  - done.
  - assert (forall t, t ∈ gr (abs exW1) -> fst t <> 50%N) as H.
    { refine (graph_all (gr (abs exW1)) _ _). dec. }
    intros p Hp. exact (H _ Hp eq_refl).
  - dec.
  - done.
  - intros u. by rewrite elem_of_elements.
  - exists w2. split; [done|]. split_and!.
    + apply (Hf 10%N (TLink 1%N 21%N)); [done|done|dec].
    + apply (Hf 21%N (TLink 2%N 10%N)); [done|done|dec].
    + apply (Hf 21%N (TAttr 30%N (2%N, 2%N))); [done|done|dec].
    + apply (Hf 10%N (TType 9%N)); [done|done|dec].
Qed.

(** Without [root_kept] the claim fails: a session connected to an existing backend
    treats its root as added, so what is removed from the root before the first
    commit stays in the backend (while the other end of the link is removed). *)
Theorem C28_root_removal_refuted :
  exists isW O d r w a q b, served isW O d r w /\
    (a, TLink q b) ∉ wgr w /\ a ∈ badd (ub w) /\ b ∈ bupd (ub w) /\
    (a, TLink q b) ∈ view r (db (fst (w_commit None w))) /\
    (b, TLink (o_inv O q) a) ∉ view r (db (fst (w_commit None w))).
Proof.
  exists exW, exO, exDb, 10%N, (wrun exW exO exW0 [WRemove 10%N [21%N] None None]), 10%N, 1%N, 21%N.
  split.
  { exists exW0, [WRemove 10%N [21%N] None None]. split; [apply exW0_connects|]. split; [|done].
    apply wvalid_runb_ok. vm_compute. reflexivity. }
  split_and!; dec.
Qed.

(** Constructing an object again under the uid of an object that was deleted since
    the last commit makes it an added one: its old triples stay in the backend. *)
Theorem C28_recreate_refuted :
  exists isW O w r u t, whist isW O w /\ wroot w = Some r /\ no_uid r (db w) /\
    u ∈ badd (ub w) /\ fst t = u /\ t ∉ wgr w /\ t ∈ view r (db (fst (w_commit None w))).
Proof.
  set (os := [WCreate [21%N; 10%N] 10%N 9%N []; WDelete 21%N; WCreate [] 21%N 3%N []]).
  exists exW, exO, (wrun exW exO (w_empty exDb) os), 10%N, 21%N, (21%N, TAttr 30%N (1%N, 1%N)).
  assert (forall os w, whist exW exO w -> Forall (fun _ => True) os ->
    (fix ok w os := match os with [] => True | o :: os' => wop_ok w o /\ ok (wstep exW exO w o) os' end) w os ->
    whist exW exO (wrun exW exO w os)) as Hrun.
  { clear. induction os as [|o os IH]; intros w Hw _ Hok; [done|]. destruct Hok as [H1 H2].
    apply (IH (wstep exW exO w o)); [by constructor|by apply Forall_true|done]. }
  split.
  { apply Hrun; [constructor|by apply Forall_true|]. subst os. split; [|split; [|split; [|done]]]; simpl.
    - split; dec.
    - dec.
    - split; dec. }
  split; [by vm_compute|]. split.
  { assert (forall t, t ∈ db (wrun exW exO (w_empty exDb) os) -> fst t <> 10%N /\ forall q, snd t <> TLink q 10%N) as H.
    { assert (db (wrun exW exO (w_empty exDb) os) = exDb) as -> by dec.
      refine (graph_all exDb _ _). vm_compute elements. repeat constructor; simpl; done. }
    intros x p Hin. by apply (H (x, p)). }
  split_and!; dec.
Qed.

(** * C29 failing commits *)
Local Transparent w_commit.

(** If the backend raises while the changes are being written (the k-th of the
    calls commit() makes to add and remove triples), the backend is rolled back,
    nothing in the session changes, and commit() can be tried again with the
    result it would have had. *)
Theorem C29_failure_while_writing_partial w r k :
  wroot w = Some r -> r ∈ wreg w -> k < length (commit_acts r (wgr w) (ub w)) ->
  exists w', w_commit (Some k) w = (w', Some BackendError) /\
    db w' = db w /\ ub w' = ub w /\ core w' = core w /\ expd w' = expd w /\ cur w' = cur w /\
    db (fst (w_commit None w')) = db (fst (w_commit None w)) /\
    snd (w_commit None w') = None /\ ub (fst (w_commit None w')) = no_bufs.
Proof.
  intros Hr Hin Hk. rewrite (failed_commit w r k Hr Hin Hk).
  destruct (enter_engine_same w) as (E1 & E2 & E3 & E4 & E5).
  eexists. split; [done|]. split; [exact E4|]. split; [exact E2|]. split; [exact E1|].
  split; [exact E3|]. split; [done|].
  assert (forall w, wroot w = Some r -> r ∈ wreg w ->
    w_commit None w = (set_cur (expire_all (set_db (set_ub (enter_engine w) no_bufs) (committed r w))) (cur w), None))
    as Hc.
  { intros v Hr' Hin'. destruct (enter_engine_same v) as (F1 & F2 & F3 & F4 & F5).
    unfold w_commit, in_engine. set (w0 := enter_engine v) in *. clearbody w0.
    assert (wroot w0 = Some r) as -> by (unfold wroot; by rewrite F1).
    assert (wreg w0 = wreg v) as -> by (unfold wreg; by rewrite F1).
    assert (wgr w0 = wgr v) as -> by (unfold wgr; by rewrite F1).
    rewrite decide_True by done. unfold committed. by rewrite F2, F4. }
  rewrite (Hc w Hr Hin).
  set (w0 := enter_engine w) in *. clearbody w0.
  rewrite (Hc (set_cur w0 (cur w))).
  - cbn [fst snd]. split; [|done].
    change (committed r (set_cur w0 (cur w)) = committed r w). unfold committed, wgr.
    change (core (set_cur w0 (cur w))) with (core w0). change (ub (set_cur w0 (cur w))) with (ub w0).
    change (db (set_cur w0 (cur w))) with (db w0). by rewrite E1, E2, E4.
  - unfold wroot. change (core (set_cur w0 (cur w))) with (core w0). by rewrite E1.
  - unfold wreg. change (core (set_cur w0 (cur w))) with (core w0). by rewrite E1.
Qed.
Example C29_example :
  wroot exW1 = Some 10%N /\ 10%N ∈ wreg exW1 /\ 6 < length (commit_acts 10%N (wgr exW1) (ub exW1)).
Proof. split; [by vm_compute|]. split; [dec|]. vm_compute. lia. Qed.

(** A session without a root refuses to commit and changes nothing. *)
Theorem C29_no_root w fail :
  wroot w = None -> exists w', w_commit fail w = (w', Some RuntimeError) /\
    db w' = db w /\ ub w' = ub w /\ core w' = core w.
Proof.
  intros Hr. destruct (enter_engine_same w) as (E1 & E2 & E3 & E4 & E5).
  unfold w_commit, in_engine. set (w0 := enter_engine w) in *. clearbody w0.
  assert (wroot w0 = None) as -> by (unfold wroot in *; by rewrite E1).
  eexists. split; [done|]. split; [exact E4|]. split; [exact E2|exact E1].
Qed.

Local Opaque w_commit.
(** Not so if the backend raises in its commit() itself: the buffers have been
    reset before, the changes are lost for the backend, and a second commit()
    succeeds without writing them. *)
Theorem C29_failure_in_backend_commit_refuted :
  exists isW O d r w k w', served isW O d r w /\
    w_commit (Some k) w = (w', Some BackendError) /\
    db w' = db w /\ buids (ub w) <> ∅ /\ buids (ub w') = ∅ /\
    snd (w_commit None w') = None /\ view r (db (fst (w_commit None w'))) <> gr (abs w) /\
    view r (db (fst (w_commit None w))) = gr (abs w).
Proof.
  exists exW, exO, exDb, 10%N, exW1, 7, (fst (w_commit (Some 7) exW1)).
  split; [apply exW1_served|]. split; [apply pair_eta; by vm_compute|].
  split_and!; first [dec|by vm_compute].
Qed.

(** * C30 (continued) *)

(** load() of the zero uid, which stands for the root in the backend, yields the
    root; its pending changes are overwritten by the backend's triples. *)
Theorem C30_load_zero_refuted :
  exists isW O d r w t, served isW O d r w /\ r ∈ bupd (ub w) /\ fst t = r /\
    t ∈ wgr w /\ snd (wload isW w [0%N]) = Ok [Some r] /\ t ∉ wgr (fst (wload isW w [0%N])).
Proof.
  set (os := [WCommit None; WSetAttr 10%N 30%N (3%N, 3%N)]).
  exists exW, exO, exDb, 10%N, (wrun exW exO exW0 os), (10%N, TAttr 30%N (3%N, 3%N)).
  split.
  { exists exW0, os. split; [apply exW0_connects|]. split; [|done].
    apply wvalid_runb_ok. vm_compute. reflexivity. }
  split_and!; first [dec|by vm_compute].
Qed.

(** * C27 (continued) *)
Definition exW2 : wsess := wrun exW exO exW0 [WCommit None; WExpire [21%N]; WExternal
  (exDb ∪ {[ (21%N, TAttr 30%N (8%N, 8%N)) ]})].
Example C27_example :
  21%N ∈ wreg exW2 /\ 21%N ∈ expd exW2 /\ 21%N ∉ bdel (ub exW2) /\ wroot exW2 = Some 10%N /\
  (21%N, TType 3%N) ∈ view 10%N (db exW2) /\
  (21%N, TAttr 30%N (8%N, 8%N)) ∉ wgr exW2 /\
  (21%N, TAttr 30%N (8%N, 8%N)) ∈ wgr (fst (notify_read exW exW2 21%N)).
Proof. split_and!; first [dec|by vm_compute]. Qed.

(** Constructing an object under the uid of an expired one: the new object is
    pending (updated) but still marked as expired, so that session.load() (or get()
    of a neighbour) replaces what was given to the constructor by the backend's
    triples. *)
Theorem C27_recreate_expired_refuted :
  exists isW O d r w0 u c a l, served isW O d r w0 /\ u ∈ expd w0 /\
    let w := wstep isW O w0 (WCreate [] u c [(a, l)]) in
    u ∈ bupd (ub w) /\ u ∈ expd w /\ (u, TAttr a l) ∈ wgr w /\
    snd (wload isW w [u]) = Ok [Some u] /\ (u, TAttr a l) ∉ wgr (fst (wload isW w [u])) /\
    (u, TAttr a l) ∉ view r (db w).
Proof.
  exists exW, exO, exDb, 10%N, (wrun exW exO exW0 [WExpire [21%N]]), 21%N, 3%N, 30%N, (9%N, 9%N).
  split.
  { exists exW0, [WExpire [21%N]]. split; [apply exW0_connects|]. split; [|done].
    apply wvalid_runb_ok. vm_compute. reflexivity. }
  cbn zeta. split_and!; first [dec|by vm_compute].
Qed.
Print Assumptions C28_commit.
Print Assumptions C28_backend_is_session.
Print Assumptions C28_commit_any.
Print Assumptions C28_commit_twice.
Print Assumptions C28_reconnect.
Print Assumptions C28_root_removal_refuted.
Print Assumptions C28_recreate_refuted.
Print Assumptions C29_failure_while_writing_partial.
Print Assumptions C29_no_root.
Print Assumptions C29_failure_in_backend_commit_refuted.
Print Assumptions C30_load_zero_refuted.
Print Assumptions C27_recreate_expired_refuted.
