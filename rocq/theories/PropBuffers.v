(** C08: pending changes are replayed by the peer. *)
From stdpp Require Import base sets list gmap countable.
From Verif Require Import Prelude Cuds CudsProofs Wrapper WrapperProofs WrapperRefine WrapperCommit Buffers PropCuds PropWrapper.

(** ** Specification *)

(** The type triples of v that are sent along with the objects us of the sender. *)
Definition sent_type (gs : graph) (us : gset uid) (v : uid) (p : po) : Prop :=
  (v, p) ∈ gs /\ (exists c, p = TType c) /\ exists u q, u ∈ us /\ (u, TLink q v) ∈ gs.

(** ** One object *)

Definition upd (w : wsess) (s : sess) (e : gset uid) (b : bufs) : wsess :=
  set_cur_buf (set_core (set_expd w e) s) b.

Lemma upd_upd w s e b s' e' b' : upd (upd w s e b) s' e' b' = upd w s' e' b'.
Proof. unfold upd, set_cur_buf. simpl. destruct w as [c cu u en x d]; destruct cu; done. Qed.
Lemma upd_buf w s e b : cur_buf (upd w s e b) = b.
Proof. unfold upd, cur_buf, set_cur_buf. destruct w as [c cu u en x d]; destruct cu; done. Qed.
Lemma upd_core w s e b : core (upd w s e b) = s.
Proof. unfold upd, set_cur_buf. destruct w as [c cu u en x d]; destruct cu; done. Qed.
Lemma upd_expd w s e b : expd (upd w s e b) = e.
Proof. unfold upd, set_cur_buf. destruct w as [c cu u en x d]; destruct cu; done. Qed.
Lemma upd_self w : upd w (core w) (expd w) (cur_buf w) = w.
Proof. unfold upd, cur_buf, set_cur_buf. destruct w as [c cu u en x d]; destruct cu; done. Qed.

Lemma store_checks_ext isW rt g g' u :
  (forall c, (u, TType c) ∈ g <-> (u, TType c) ∈ g') ->
  store_checks isW rt g u = store_checks isW rt g' u.
Proof.
  intros H. unfold store_checks.
  assert (is_wrapper isW g u = is_wrapper isW g' u) as ->.
  { unfold is_wrapper. apply Bool.eq_iff_eq_true. rewrite !existsb_exists.
    split; intros (c & Hc & Hw); exists c; (split; [|done]); apply elem_of_list_In, elem_classes, H, elem_classes, elem_of_list_In; done. }
  destruct (_ && _); [done|]. destruct (_ && _); [done|].
  assert (forall a b, (forall c, (u, TType c) ∈ a -> (u, TType c) ∈ b) -> classes b u = [] -> classes a u = []) as HH.
  { intros a b Hab Hb. destruct (classes a u) as [|c l] eqn:E; [done|].
    assert (c ∈ classes b u) as Hc by (apply elem_classes, Hab, elem_classes; rewrite E; left).
    rewrite Hb in Hc. by apply elem_of_nil in Hc. }
  destruct (classes g u) eqn:E1, (classes g' u) eqn:E2; try done.
  - rewrite (HH g' g) in E2; [done|by intros; apply H|done].
  - rewrite (HH g g') in E1; [done|by intros; apply H|done].
Qed.
Lemma checks_type isW rt g u : store_checks isW rt g u = None -> exists c, (u, TType c) ∈ g.
Proof.
  unfold store_checks. destruct (_ && _); [done|]. destruct (_ && _); [done|].
  destruct (classes g u) as [|c l] eqn:E; [done|]. intros _. exists c. apply elem_classes. rewrite E. left.
Qed.

Lemma elem_nb g u x p :
  (x, p) ∈ neighbor_types g u <-> (x, p) ∈ g /\ (exists c, p = TType c) /\ exists q, (u, TLink q x) ∈ g.
Proof. rewrite elem_neighbor_types. tauto || (split; intros; naive_solver). Qed.

(** The graph after the object u of the sender's graph gs has been received. *)
Definition recv (g gs : graph) (reg : gset uid) (u : uid) : graph :=
  (if decide (u ∈ reg) then filter (fun t => fst t <> u) g else g) ∪ triples_of gs u ∪ neighbor_types gs u.

Definition one_buf (b : bufs) (reg : gset uid) (u : uid) : bufs :=
  if decide (u ∈ reg)
  then (if decide (u ∈ badd b ∪ bupd b) then b else Bufs (badd b) (bupd b ∪ {[u]}) (bdel b))
  else Bufs (badd b ∪ {[u]}) (bupd b) (bdel b ∖ {[u]}).

Lemma create_ok isW w gs u :
  wroot w <> None ->
  store_checks isW (wroot w) gs u = None ->
  u ∉ bdel (cur_buf w) ->
  (u ∉ wreg w -> forall p, (u, p) ∈ wgr w -> (u, p) ∈ gs) ->
  create_from_triples isW w (entry_of gs u) =
    (upd w (Sess (wreg w ∪ {[u]}) (recv (wgr w) gs (wreg w) u) (wroot w)) (expd w ∖ {[u]})
           (one_buf (cur_buf w) (wreg w) u), None).
Proof.
  intros Hrt Hchk Hdel Hstale. unfold create_from_triples. simpl.
  destruct (checks_type _ _ _ _ Hchk) as [c Hc].
  rewrite decide_False.
  2: { intros E. assert ((u, TType c) ∈ triples_of gs u) as Hin by (by apply elem_triples_of).
       rewrite E in Hin. set_solver. }
  set (w1 := set_expd w (expd w ∖ {[u]})).
  set (w2 := if decide (u ∈ wreg w1) then _ else _).
  assert (w2 = upd w (Sess (wreg w ∪ {[u]}) (if decide (u ∈ wreg w) then filter (fun t => fst t <> u) (wgr w) else wgr w) (wroot w))
                     (expd w ∖ {[u]})
                     (if decide (u ∈ wreg w) then cur_buf w else one_buf (cur_buf w) (wreg w) u)) as ->.
  { subst w2. change (wreg w1) with (wreg w). unfold one_buf. destruct (decide (u ∈ wreg w)) as [Hin|Hin].
    - unfold upd, set_cur_buf, cur_buf, set_wgr, set_core. subst w1.
      assert (wreg w ∪ {[u]} = wreg w) as -> by set_solver.
      destruct w as [s cu ub0 eb0 e d]; destruct cu; done.
    - unfold w_store. change (classes ∅ u) with (@nil cls). simpl.
      rewrite decide_False by done. unfold upd. change (wreg w1) with (wreg w). change (wgr w1) with (wgr w).
      change (wroot w1) with (wroot w). destruct (wroot w) as [r|] eqn:Er; [|done].
      assert (wgr w ∪ ∅ = wgr w) as -> by set_solver.
      subst w1. unfold cur_buf, set_cur_buf. destruct w as [s cu ub0 eb0 e d]; destruct cu; done. }
  remember (if decide (u ∈ wreg w) then cur_buf w else one_buf (cur_buf w) (wreg w) u) as b eqn:Eb.
  assert (forall g, set_wgr (upd w (Sess (wreg w ∪ {[u]}) g (wroot w)) (expd w ∖ {[u]}) b)
             (wgr (upd w (Sess (wreg w ∪ {[u]}) g (wroot w)) (expd w ∖ {[u]}) b) ∪ triples_of gs u ∪ neighbor_types gs u) =
          upd w (Sess (wreg w ∪ {[u]}) (g ∪ triples_of gs u ∪ neighbor_types gs u) (wroot w)) (expd w ∖ {[u]}) b) as Hset.
  { intros g. unfold set_wgr, wgr. rewrite upd_core. simpl. unfold upd, set_cur_buf, set_core, set_gr.
    destruct w as [s cu ub0 eb0 e d]; destruct cu; done. }
  rewrite Hset. fold (recv (wgr w) gs (wreg w) u). set (w3 := upd w _ _ b).
  assert (wroot w3 = wroot w) as Hr3 by (unfold wroot, w3; by rewrite upd_core).
  assert (wgr w3 = recv (wgr w) gs (wreg w) u) as Hg3 by (unfold wgr, w3; by rewrite upd_core).
  rewrite Hr3, Hg3.
  rewrite (store_checks_ext isW (wroot w) (recv (wgr w) gs (wreg w) u) gs u).
  2: { intros c'. unfold recv. rewrite !elem_of_union, elem_triples_of, elem_nb. split; [|by auto].
       intros [[H|[H _]]|[H _]]; [|done|done]. revert H. case_decide as Hd; [|by auto].
       rewrite elem_of_filter. by intros []. }
  rewrite Hchk. assert (cur_buf w3 = b) as Hb3 by apply upd_buf.
  unfold notify_update. rewrite Hb3. destruct (decide (u ∈ wreg w)) as [Hin|Hin].
  - subst b. rewrite decide_False by done. unfold one_buf. rewrite (decide_True (P := u ∈ wreg w)) by done.
    destruct (decide (u ∈ badd (cur_buf w) ∪ bupd (cur_buf w))) as [Hp|Hp]; [done|].
    f_equal. unfold w3, upd, set_cur_buf. destruct w as [s cu ub0 eb0 e d]; destruct cu; done.
  - assert (b = Bufs (badd (cur_buf w) ∪ {[u]}) (bupd (cur_buf w)) (bdel (cur_buf w) ∖ {[u]})) as Eb'.
    { rewrite Eb. unfold one_buf. by rewrite decide_False. }
    rewrite Eb'. simpl. rewrite decide_False by set_solver.
    rewrite decide_True by set_solver. unfold w3. by rewrite Eb.
Qed.

(** ** Many objects *)
Lemma create_all_ok isW gs us : forall w,
  wroot w <> None -> NoDup us ->
  (forall u, u ∈ us -> store_checks isW (wroot w) gs u = None) ->
  (forall u, u ∈ us -> u ∉ bdel (cur_buf w)) ->
  (forall u p, u ∈ us -> u ∉ wreg w -> (u, p) ∈ wgr w -> (u, p) ∈ gs) ->
  let S : gset uid := list_to_set us in
  let b := cur_buf w in
  exists G,
    create_all isW w (entry_of gs <$> us) =
      (upd w (Sess (wreg w ∪ S) G (wroot w)) (expd w ∖ S)
         (Bufs (badd b ∪ (S ∖ wreg w)) (bupd b ∪ ((S ∩ wreg w) ∖ badd b)) (bdel b)), None) /\
    (forall v p, v ∈ us -> (v, p) ∈ G <-> (v, p) ∈ gs) /\
    (forall v p, v ∉ us -> (v, p) ∈ G <-> (v, p) ∈ wgr w \/ sent_type gs S v p).
Proof.
  induction us as [|u us IH]; intros w Hrt Hnd Hchk Hdel Hst; simpl.
  - exists (wgr w). split.
    { assert (wreg w ∪ ∅ = wreg w) as -> by set_solver. assert (expd w ∖ ∅ = expd w) as -> by set_solver.
      assert (badd (cur_buf w) ∪ ∅ ∖ wreg w = badd (cur_buf w)) as -> by set_solver.
      assert (bupd (cur_buf w) ∪ (∅ ∩ wreg w) ∖ badd (cur_buf w) = bupd (cur_buf w)) as -> by set_solver.
      pose proof (upd_self w) as E. destruct (cur_buf w) as [x y z] eqn:Eb. simpl.
      assert (Sess (wreg w) (wgr w) (wroot w) = core w) as -> by (by destruct (core w) eqn:Ec; unfold wreg, wgr, wroot; rewrite Ec).
      by rewrite E. }
    split; [by intros v p Hv; apply elem_of_nil in Hv|]. intros v p _. split; [by left|].
    intros [?|(_ & _ & u & q & Hu & _)]; [done|]. set_solver.
  - apply stdpp.list.NoDup_cons in Hnd as [Hu Hnd].
    rewrite create_ok; [|done|apply Hchk; left|apply Hdel; left|intros ? ?; apply Hst; [left|done]].
    set (b1 := one_buf (cur_buf w) (wreg w) u).
    set (w1 := upd w _ _ b1).
    assert (cur_buf w1 = b1) as Hb1 by apply upd_buf.
    assert (core w1 = Sess (wreg w ∪ {[u]}) (recv (wgr w) gs (wreg w) u) (wroot w)) as Hc1 by apply upd_core.
    assert (expd w1 = expd w ∖ {[u]}) as He1 by apply upd_expd.
    assert (wreg w1 = wreg w ∪ {[u]}) as Hr1 by (unfold wreg at 1; by rewrite Hc1).
    assert (wgr w1 = recv (wgr w) gs (wreg w) u) as Hg1 by (unfold wgr at 1; by rewrite Hc1).
    assert (wroot w1 = wroot w) as Hrt1 by (unfold wroot at 1; by rewrite Hc1).
    assert (bdel b1 = bdel (cur_buf w)) as Hd1.
    { unfold b1, one_buf. destruct (decide (u ∈ wreg w)); [by case_decide|]. simpl.
      pose proof (Hdel u ltac:(left)). set_solver. }
    assert (forall v p, (v, p) ∈ recv (wgr w) gs (wreg w) u <->
              if decide (v = u) then (v, p) ∈ gs else (v, p) ∈ wgr w \/ sent_type gs {[u]} v p) as Hrecv.
    { intros v p. unfold recv. rewrite !elem_of_union, elem_triples_of, elem_nb. unfold sent_type. simpl.
      destruct (decide (v = u)) as [->|Hne].
      - split; [|by auto]. intros [[H|[H _]]|[H _]]; [|done|done]. revert H. case_decide as Hd.
        + rewrite elem_of_filter. by intros [].
        + intros H. apply Hst; [left|done|done].
      - assert ((v, p) ∈ (if decide (u ∈ wreg w) then filter (fun t : triple => fst t <> u) (wgr w) else wgr w) <-> (v, p) ∈ wgr w) as ->.
        { case_decide; [|done]. rewrite elem_of_filter. simpl. naive_solver. }
        split.
        + intros [[H|[H ?]]|(H & Ht & q & Hq)]; [by left|done|]. right. split; [done|]. split; [done|].
          exists u, q. split; [by apply elem_of_singleton|done].
        + intros [H|(H & Ht & x & q & Hx & Hq)]; [by left; left|]. apply elem_of_singleton in Hx as ->.
          right. split; [done|]. split; [done|]. by exists q. }
    destruct (IH w1) as (G & HG & HG1 & HG2).
    { by rewrite Hrt1. } { done. }
    { intros v Hv. rewrite Hrt1. apply Hchk. by right. }
    { intros v Hv. rewrite Hb1, Hd1. apply Hdel. by right. }
    { intros v p Hv Hnr. rewrite Hg1, Hrecv. case_decide as Hd; [done|].
      intros [H|[H _]]; [|done]. apply Hst; [by right| |done]. rewrite Hr1 in Hnr. clear -Hnr. set_solver. }
    exists G. split; [|split].
    + etransitivity; [exact HG|]. f_equal. unfold w1 at 1. rewrite upd_upd. fold w1. rewrite Hr1, Hrt1, He1, Hb1, Hd1.
      assert (wreg w ∪ {[u]} ∪ list_to_set us = wreg w ∪ ({[u]} ∪ list_to_set us)) as -> by (clear; set_solver).
      assert (expd w ∖ {[u]} ∖ list_to_set us = expd w ∖ ({[u]} ∪ list_to_set us)) as -> by (clear; set_solver).
      f_equal. clear -Hu. unfold b1, one_buf. destruct (cur_buf w) as [x y z]. simpl. destruct (decide (u ∈ wreg w)) as [Hin|Hin].
      * case_decide as Hp; simpl; f_equal; apply set_eq; intros v; clear -Hu Hin Hp; destruct (decide (v = u)); set_solver.
      * simpl. f_equal; apply set_eq; intros v; clear -Hu Hin; destruct (decide (v = u)) as [->|]; set_solver.
    + intros v p Hv. apply elem_of_cons in Hv as [->|Hv]; [|by apply HG1].
      rewrite HG2 by done. rewrite Hg1, Hrecv, decide_True by done.
      split; [|by left]. by intros [?|[? _]].
    + intros v p Hv. rewrite not_elem_of_cons in Hv. destruct Hv as [Hvu Hvs].
      rewrite HG2 by done. rewrite Hg1, Hrecv, decide_False by done. unfold sent_type. clear. set_solver.
Qed.

(** ** Deleted objects *)
Lemma elem_tombs dc us v p : (v, p) ∈ tombs dc us <-> v ∈ us /\ p = TType (dc v).
Proof.
  unfold tombs. rewrite elem_of_list_to_set, elem_of_list_In, in_map_iff. split.
  - intros (x & [= -> <-] & Hin). split; [by apply elem_of_list_In|done].
  - intros [H ->]. exists v. split; [done|by apply elem_of_list_In].
Qed.
Lemma tombs_checks isW rt dc us u :
  rt <> None -> u ∈ us -> isW (dc u) = false -> store_checks isW rt (tombs dc us) u = None.
Proof.
  intros Hrt Hu Hw. unfold store_checks, is_wrapper.
  assert (forall c, c ∈ classes (tombs dc us) u -> c = dc u) as Hcl.
  { intros c Hc. apply elem_classes, elem_tombs in Hc as [_ [= ->]]. done. }
  assert (existsb isW (classes (tombs dc us) u) = false) as ->.
  { apply Bool.not_true_iff_false. intros H. apply existsb_exists in H as (c & Hc & H).
    apply elem_of_list_In, Hcl in Hc. subst. congruence. }
  simpl. rewrite bool_decide_eq_false_2 by done.
  destruct (classes (tombs dc us) u) eqn:E; [|done].
  assert (dc u ∈ classes (tombs dc us) u) as H by (apply elem_classes, elem_tombs; done).
  rewrite E in H. by apply elem_of_nil in H.
Qed.
Lemma sent_tombs dc us S v p : ~ sent_type (tombs dc us) S v p.
Proof. intros (_ & _ & u & q & _ & H). by apply elem_tombs in H as [_ ?]. Qed.

Lemma upd_set_buf w s e b b' : set_cur_buf (upd w s e b) b' = upd w s e b'.
Proof. unfold upd, set_cur_buf. destruct w as [s0 cu ub0 eb0 e0 d]; destruct cu; done. Qed.

Lemma fold_delete us : forall w s e b,
  badd b ## bupd b -> NoDup us ->
  foldl notify_delete (upd w s e b) us =
  upd w s e (Bufs (badd b ∖ list_to_set us) (bupd b ∖ list_to_set us)
                  (bdel b ∪ (list_to_set us ∖ badd b))).
Proof.
  induction us as [|u us IH]; intros w s e b Hd Hnd; simpl.
  - destruct b as [x y z]. simpl. do 2 f_equal; set_solver.
  - apply stdpp.list.NoDup_cons in Hnd as [Hu Hnd]. simpl in Hd.
    unfold notify_delete at 2. rewrite upd_buf. rewrite !upd_set_buf. destruct b as [x y z]. simpl in *.
    assert (u ∉ (list_to_set us : gset uid)) as Hu' by (by rewrite elem_of_list_to_set).
    destruct (decide (u ∈ x)) as [Hx|Hx].
    + rewrite IH by (simpl; set_solver). simpl. f_equal.
      f_equal; apply set_eq; intros v; destruct (decide (v = u)) as [->|]; clear -Hu' Hx Hd; set_solver.
    + destruct (decide (u ∈ y)) as [Hy|Hy]; rewrite IH by (simpl; set_solver); simpl; f_equal;
      f_equal; apply set_eq; intros v; destruct (decide (v = u)) as [->|]; clear -Hu' Hx Hy Hd; set_solver.
Qed.
Lemma fold_forget us : forall w rg g rt e b,
  foldl forget (upd w (Sess rg g rt) e b) us = upd w (Sess (rg ∖ list_to_set us) g rt) e b.
Proof.
  induction us as [|u us IH]; intros w rg g rt e b; simpl.
  - do 2 f_equal. set_solver.
  - assert (forget (upd w (Sess rg g rt) e b) u = upd w (Sess (rg ∖ {[u]}) g rt) e b) as ->.
    { unfold forget, wreg, wgr, wroot. rewrite upd_core. simpl. unfold upd, set_cur_buf, set_core.
      destruct w as [s0 cu ub0 eb0 e0 d]; destruct cu; done. }
    rewrite IH. do 2 f_equal. set_solver.
Qed.

Lemma create_all_app isW l1 : forall w l2,
  create_all isW w (l1 ++ l2) =
  match create_all isW w l1 with (w1, Some x) => (w1, Some x) | (w1, None) => create_all isW w1 l2 end.
Proof.
  induction l1 as [|e l1 IH]; intros w l2; simpl; [done|].
  destruct (create_from_triples isW w e) as [w1 [x|]]; [done|]. apply IH.
Qed.

(** ** The body *)
Lemma body_ok isW dc gs la lu ld ex w :
  wroot w <> None -> NoDup (la ++ lu ++ ld) ->
  (forall u, u ∈ la ++ lu -> store_checks isW (wroot w) gs u = None) ->
  (forall u, u ∈ ld -> isW (dc u) = false) ->
  (forall u, u ∈ la -> u ∉ wreg w) -> (forall u, u ∈ lu ++ ld -> u ∈ wreg w) ->
  (forall u p, u ∈ la -> (u, p) ∈ wgr w -> (u, p) ∈ gs) ->
  badd (cur_buf w) ## bupd (cur_buf w) -> (forall u, u ∈ la ++ lu ++ ld -> u ∉ bdel (cur_buf w)) ->
  badd (cur_buf w) ⊆ wreg w -> bupd (cur_buf w) ⊆ wreg w ->
  let A : gset uid := list_to_set la in let U : gset uid := list_to_set lu in
  let D : gset uid := list_to_set ld in
  let b := cur_buf w in
  exists G,
    deserialize_body isW (Msg (entry_of gs <$> la) (entry_of gs <$> lu) (entry_of (tombs dc ld) <$> ld) ex) w =
      (upd w (Sess ((wreg w ∪ A) ∖ D) G (wroot w))
         (((expd w ∪ (ex ∖ buids (ub w))) ∩ wreg w) ∖ (A ∪ U ∪ D))
         (Bufs ((badd b ∪ A) ∖ D) ((bupd b ∪ (U ∖ badd b)) ∖ D) (bdel b ∪ (D ∖ badd b))), None) /\
    (forall v p, v ∈ A ∪ U -> (v, p) ∈ G <-> (v, p) ∈ gs) /\
    (forall v p, v ∈ D -> (v, p) ∈ G <-> p = TType (dc v)) /\
    (forall v p, v ∉ A ∪ U ∪ D -> (v, p) ∈ G <-> (v, p) ∈ wgr w \/ sent_type gs (A ∪ U) v p).
Proof.
  intros Hrt Hnd Hchk Hdw Hna Hin Hst Hbd Hbn Hbr Hbr2 A U D b.
  rewrite app_assoc in Hnd. apply NoDup_app in Hnd as (Hnd1 & Hdis & Hnd2).
  pose proof Hnd1 as Hnd1'. apply NoDup_app in Hnd1' as (_ & Hdis1 & _).
  assert (forall v, (v ∈ A -> v ∉ wreg w /\ v ∉ badd b /\ v ∉ bupd b /\ v ∉ bdel b) /\ (v ∈ U -> v ∈ wreg w /\ v ∉ A /\ v ∉ D /\ v ∉ bdel b) /\ (v ∈ D -> v ∈ wreg w /\ v ∉ A /\ v ∉ bdel b) /\ (v ∈ badd b -> v ∉ bupd b)) as HH.
  { intros v. unfold A, U, D. rewrite !elem_of_list_to_set.
    pose proof (Hna v). pose proof (Hin v). pose proof (Hdis v). pose proof (Hdis1 v). pose proof (Hbn v).
    pose proof (Hbr v). pose proof (Hbr2 v). pose proof (Hbd v). rewrite !elem_of_app in *. tauto. }
  unfold deserialize_body. simpl m_exp. simpl m_add. simpl m_upd. simpl m_del.
  set (w0 := fst (expire w ex)).
  assert (w0 = upd w (core w) ((expd w ∪ (ex ∖ buids (ub w))) ∩ wreg w) b) as Hw0.
  { unfold w0, expire, upd, b. simpl. unfold set_cur_buf, cur_buf, set_expd, set_core.
    destruct w as [s0 cu ub0 eb0 e0 d]; destruct cu; done. }
  assert (wreg w0 = wreg w) as Hr0 by (unfold wreg at 1; by rewrite Hw0, upd_core).
  assert (wgr w0 = wgr w) as Hg0 by (unfold wgr at 1; by rewrite Hw0, upd_core).
  assert (wroot w0 = wroot w) as Hrt0 by (unfold wroot at 1; by rewrite Hw0, upd_core).
  assert (cur_buf w0 = b) as Hb0 by (by rewrite Hw0, upd_buf).
  rewrite app_assoc, <- fmap_app, create_all_app.
  destruct (create_all_ok isW gs (la ++ lu) w0) as (G1 & HG1 & E1 & E2).
  { by rewrite Hrt0. } { done. } { by rewrite Hrt0. }
  { rewrite Hb0. intros u Hu. apply Hbn. rewrite app_assoc. apply elem_of_app. by left. }
  { intros u p Hu Hn. rewrite Hg0. rewrite Hr0 in Hn. apply Hst.
    apply elem_of_app in Hu as [?|Hu]; [done|]. destruct Hn. apply Hin, elem_of_app. by left. }
  rewrite HG1. rewrite Hr0, Hrt0, Hb0.
  set (w1 := upd w0 _ _ _).
  assert (wreg w1 = wreg w ∪ list_to_set (la ++ lu)) as Hr1 by (unfold wreg at 1, w1; by rewrite upd_core).
  assert (wgr w1 = G1) as Hg1 by (unfold wgr, w1; by rewrite upd_core).
  assert (wroot w1 = wroot w) as Hrt1 by (unfold wroot at 1, w1; by rewrite upd_core).
  assert (expd w1 = expd w0 ∖ list_to_set (la ++ lu)) as He1 by (apply upd_expd).
  assert (cur_buf w1 = Bufs (badd b ∪ A) (bupd b ∪ (U ∖ badd b)) (bdel b)) as Hb1.
  { unfold w1. rewrite upd_buf. rewrite list_to_set_app_L. fold A U.
    f_equal; apply set_eq; intros v; specialize (HH v); repeat rewrite ?elem_of_difference, ?elem_of_union, ?elem_of_intersection; tauto. }
  destruct (create_all_ok isW (tombs dc ld) ld w1) as (G2 & HG2 & F1 & F2).
  { by rewrite Hrt1. } { done. } { intros u Hu. rewrite Hrt1. apply tombs_checks; auto. }
  { rewrite Hb1. simpl. intros u Hu. apply Hbn. rewrite app_assoc. apply elem_of_app. by right. }
  { intros u p Hu Hn. destruct Hn. rewrite Hr1. apply elem_of_union_l, Hin, elem_of_app. by right. }
  rewrite HG2. rewrite Hr1, Hrt1, He1, Hb1. simpl badd. simpl bupd. simpl bdel.
  assert (e_uid <$> (entry_of (tombs dc ld) <$> ld) = ld) as ->.
  { rewrite <- list_fmap_compose. apply list_fmap_id. }
  rewrite list_to_set_app_L. fold A U D.
  rewrite fold_delete; [|simpl|done].
  2: { apply elem_of_disjoint. intros v. specialize (HH v).
       repeat rewrite ?elem_of_difference, ?elem_of_union, ?elem_of_intersection. tauto. }
  rewrite fold_forget. exists G2. split; [|split; [|split]].
  - f_equal. unfold w1. rewrite Hw0, !upd_upd, upd_expd. simpl badd. simpl bupd. simpl bdel. fold A U D. f_equal.
    + f_equal. apply set_eq. intros v. specialize (HH v). rewrite !elem_of_difference, !elem_of_union. tauto.
    + apply set_eq. intros v. rewrite !elem_of_difference, !elem_of_union. tauto.
    + f_equal; apply set_eq; intros v; specialize (HH v); repeat rewrite ?elem_of_difference, ?elem_of_union, ?elem_of_intersection; tauto.
  - intros v p Hv. rewrite F2.
    2: { intros Hd. apply (Hdis v); [|done]. unfold A, U in Hv. rewrite elem_of_union, !elem_of_list_to_set in Hv. by apply elem_of_app. }
    rewrite Hg1, E1. 2: { unfold A, U in Hv. rewrite elem_of_union, !elem_of_list_to_set in Hv. by apply elem_of_app. }
    split; [|by left]. intros [?|H]; [done|]. by apply sent_tombs in H.
  - intros v p Hv. unfold D in Hv. rewrite elem_of_list_to_set in Hv. rewrite F1 by done. rewrite elem_tombs. tauto.
  - intros v p Hv. unfold A, U, D in Hv. rewrite !not_elem_of_union, !elem_of_list_to_set in Hv.
    rewrite F2 by tauto. rewrite Hg1, E2 by (rewrite elem_of_app; tauto).
    rewrite Hg0, list_to_set_app_L. fold A U. split; [|by left].
    intros [?|H]; [done|]. by apply sent_tombs in H.
Qed.

(** ** The theorems *)

(** u has a type in g, and is a wrapper only if it is the receiver's root. *)
Definition acceptable (isW : cls -> bool) (p : wsess) (g : graph) (u : uid) : Prop :=
  (exists c, (u, TType c) ∈ g) /\ forall c, (u, TType c) ∈ g -> isW c = true -> wroot p = Some u.

Lemma acceptable_checks isW p g u :
  wroot p <> None -> acceptable isW p g u -> store_checks isW (wroot p) g u = None.
Proof.
  intros Hrt [[c Hc] Hw]. unfold store_checks.
  assert (is_wrapper isW g u && bool_decide (wroot p <> None /\ wroot p <> Some u) = false) as ->.
  { destruct (is_wrapper isW g u) eqn:E; [|done]. simpl. apply bool_decide_eq_false. intros [_ Hne].
    unfold is_wrapper in E. apply existsb_exists in E as (c' & Hc' & HW).
    apply elem_of_list_In, elem_classes in Hc'. by apply Hne, (Hw c'). }
  rewrite (bool_decide_eq_false_2 (wroot p = None)) by done. rewrite andb_false_r.
  destruct (classes g u) eqn:E; [|done]. apply elem_classes in Hc. rewrite E in Hc. by apply elem_of_nil in Hc.
Qed.

(** The receiver p, whose pending changes in the context in question are d, knows
    the objects that the pending changes b of the sender w update or delete and
    does not know those that they add. *)
Record can_receive (isW : cls -> bool) (dc : uid -> cls) (w : wsess) (b : bufs) (p : wsess) (d : bufs)
  : Prop := {
  cr_root : wroot p <> None;
  cr_new : badd b ## wreg p;
  cr_known : bupd b ∪ bdel b ⊆ wreg p;
  cr_accept : forall u, u ∈ badd b ∪ bupd b -> acceptable isW p (wgr w) u;
  cr_del : forall u, u ∈ bdel b -> isW (dc u) = false;          (* not the root *)
  cr_clean : forall u, u ∈ badd b -> triples_of (wgr p) u ⊆ triples_of (wgr w) u;
  cr_own : badd d ∪ bupd d ⊆ wreg p;
  cr_own_dis : badd d ## bupd d;
  cr_own_del : bdel d ## buids b }.

Definition disjoint_bufs (b : bufs) : Prop :=
  badd b ## bupd b /\ badd b ## bdel b /\ bupd b ## bdel b.

(** What p' has after the pending changes b of w have been applied to p, whose own
    pending changes were d. *)
Record applied (dc : uid -> cls) (w : wsess) (b : bufs) (ex : gset uid) (p p' : wsess) (d d' : bufs)
  : Prop := {
  ap_objects : wreg p' = (wreg p ∪ badd b) ∖ bdel b;
  ap_same : forall u, u ∈ badd b ∪ bupd b -> triples_of (wgr p') u = triples_of (wgr w) u;
  ap_deleted : forall u, u ∈ bdel b -> triples_of (wgr p') u = {[ (u, TType (dc u)) ]};
  ap_others : forall u q, u ∉ buids b ->
    (u, q) ∈ wgr p' <-> (u, q) ∈ wgr p \/ sent_type (wgr w) (badd b ∪ bupd b) u q;
  ap_pending : d' = Bufs ((badd d ∪ badd b) ∖ bdel b) ((bupd d ∪ (bupd b ∖ badd d)) ∖ bdel b)
                         (bdel d ∪ (bdel b ∖ badd d));
  ap_expired : expd p' = ((expd p ∪ (ex ∖ buids (ub p))) ∩ wreg p) ∖ buids b;
  ap_rest : wroot p' = wroot p /\ db p' = db p /\ cur p' = cur p }.

Lemma replay_body isW dc w b p la lu ld ex :
  disjoint_bufs b -> can_receive isW dc w b p (cur_buf p) ->
  la ≡ₚ elements (badd b) -> lu ≡ₚ elements (bupd b) -> ld ≡ₚ elements (bdel b) ->
  exists p' d', deserialize_body isW (Msg (entry_of (wgr w) <$> la) (entry_of (wgr w) <$> lu)
                                       (entry_of (tombs dc ld) <$> ld) ex) p = (p', None) /\
    applied dc w b ex p p' (cur_buf p) d' /\ p' = upd p (core p') (expd p') d'.
Proof.
  intros (D1 & D2 & D3) [C1 C2 C3 C4 C5 C6 C7 C8 C9] Ha Hu Hd.
  assert (forall u, u ∈ la <-> u ∈ badd b) as Ea by (intros u; by rewrite Ha, elem_of_elements).
  assert (forall u, u ∈ lu <-> u ∈ bupd b) as Eu by (intros u; by rewrite Hu, elem_of_elements).
  assert (forall u, u ∈ ld <-> u ∈ bdel b) as Ed by (intros u; by rewrite Hd, elem_of_elements).
  assert ((list_to_set la : gset uid) = badd b) as Sa by (apply set_eq; intros u; by rewrite elem_of_list_to_set).
  assert ((list_to_set lu : gset uid) = bupd b) as Su by (apply set_eq; intros u; by rewrite elem_of_list_to_set).
  assert ((list_to_set ld : gset uid) = bdel b) as Sd by (apply set_eq; intros u; by rewrite elem_of_list_to_set).
  destruct (body_ok isW dc (wgr w) la lu ld ex p) as (G & HG & G1 & G2 & G3).
  - done.
  - apply NoDup_app. split; [rewrite Ha; apply NoDup_elements|]. split.
    { intros u Hx. rewrite elem_of_app, Eu, Ed. apply Ea in Hx. intros [H|H]; [by apply (D1 u)|by apply (D2 u)]. }
    apply NoDup_app. split; [rewrite Hu; apply NoDup_elements|]. split; [|rewrite Hd; apply NoDup_elements].
    intros u Hx. rewrite Ed. apply Eu in Hx. intros H. by apply (D3 u).
  - intros u. rewrite elem_of_app, Ea, Eu. intros H. apply acceptable_checks; [done|]. apply C4. by apply elem_of_union.
  - intros u. rewrite Ed. apply C5.
  - intros u. rewrite Ea. intros H1 H2. by apply (C2 u).
  - intros u. rewrite elem_of_app, Eu, Ed. intros H. apply C3. by apply elem_of_union.
  - intros u q. rewrite Ea. intros H1 H2.
    assert ((u, q) ∈ triples_of (wgr w) u) as H; [|by apply elem_triples_of in H as [? _]].
    apply C6; [done|]. by apply elem_triples_of.
  - done.
  - intros u. rewrite !elem_of_app, Ea, Eu, Ed. intros H1 H2. apply (C9 u H2). unfold buids. rewrite !elem_of_union. tauto.
  - intros u H. apply C7, elem_of_union. by left.
  - intros u H. apply C7, elem_of_union. by right.
  - rewrite Sa, Su, Sd in *. eexists _, _. split; [exact HG|]. split.
    + constructor.
      * unfold wreg at 1. by rewrite upd_core.
      * intros u Hx. apply set_eq. intros [x q]. rewrite !elem_triples_of. unfold wgr at 1. rewrite upd_core. simpl.
        split; intros [H ->]; (split; [|done]); by apply G1.
      * intros u Hx. apply set_eq. intros [x q]. rewrite elem_triples_of, elem_of_singleton. unfold wgr at 1.
        rewrite upd_core. simpl. split.
        { intros [H ->]. f_equal. by apply G2. }
        { intros [= -> ->]. split; [|done]. by apply G2. }
      * intros u q Hx. unfold wgr at 1. rewrite upd_core. simpl. by apply G3.
      * reflexivity.
      * by rewrite upd_expd.
      * unfold wroot at 1. rewrite upd_core. simpl. split; [done|].
        unfold upd, set_cur_buf. destruct p as [s0 cu ub0 eb0 e0 dd]; destruct cu; done.
    + rewrite upd_core, upd_expd. reflexivity.
Qed.

(** The pending changes of w in either context, sent in any order to a session p,
    whether p takes them as changes of its user or of its engine. *)
Theorem C08_replay isW dc w c p c' la lu ld :
  let b := buf w c in
  let d := match c' with USER => ub p | ENGINE => no_bufs end in
  cur p = USER -> disjoint_bufs b -> can_receive isW dc w b p d ->
  la ≡ₚ elements (badd b) -> lu ≡ₚ elements (bupd b) -> ld ≡ₚ elements (bdel b) ->
  exists p' w' m,
    serialize_buffers dc la lu ld w c = (w', m) /\
    deserialize_buffers isW c' m p = (p', None) /\
    applied dc w b (expd w) p p' d (buf p' c') /\
    (c' = ENGINE -> ub p' = ub p) /\ (c' = USER -> eb p' = eb p) /\
    buf w' c = no_bufs /\ core w' = core w /\ expd w' = expd w /\ db w' = db w.
Proof.
  intros b d Hcur Hdis Hcan Ha Hu Hd.
  unfold serialize_buffers. set (m := Msg _ _ _ _).
  assert (buf (reset w c) c = no_bufs /\ core (reset w c) = core w /\ expd (reset w c) = expd w /\ db (reset w c) = db w) as Hrst
    by (by destruct c).
  destruct c'.
  - assert (cur_buf p = d) as Ed by (unfold cur_buf; by rewrite Hcur).
    rewrite <- Ed in Hcan. destruct (replay_body isW dc w b p la lu ld (expd w) Hdis Hcan Ha Hu Hd) as (p' & d' & E & Hap & Ep).
    assert (eb p' = eb p /\ buf p' USER = d') as [Ee Eb].
    { rewrite Ep. unfold upd, set_cur_buf. destruct p as [s0 cu ub0 eb0 e0 dd]. simpl in *. by rewrite Hcur. }
    eexists p', _, m. split; [done|]. split; [exact E|]. rewrite Eb, <- Ed. done.
  - set (p0 := enter_engine p).
    assert (cur_buf p0 = no_bufs) as Ed by (unfold p0, enter_engine, cur_buf; by rewrite Hcur, decide_False).
    assert (core p0 = core p /\ expd p0 = expd p /\ db p0 = db p /\ ub p0 = ub p) as (P1 & P2 & P3 & P4).
    { unfold p0, enter_engine. by rewrite Hcur, decide_False. }
    assert (can_receive isW dc w b p0 (cur_buf p0)) as Hcan0.
    { rewrite Ed. destruct Hcan as [C1 C2 C3 C4 C5 C6 C7 C8 C9].
      constructor; unfold acceptable, wreg, wgr, wroot in *; rewrite ?P1; done. }
    destruct (replay_body isW dc w b p0 la lu ld (expd w) Hdis Hcan0 Ha Hu Hd) as (p' & d' & E & Hap & Ep).
    assert (ub p' = ub p /\ eb p' = d' /\ db p' = db p) as (Ee & Eb & Edb).
    { rewrite Ep, <- P4, <- P3. unfold upd, set_cur_buf. unfold p0, enter_engine. destruct p as [s0 cu ub0 eb0 e0 dd]. simpl in *. by subst cu. }
    exists (set_cur p' (cur p)), (reset w c), m. split; [done|]. split.
    { unfold deserialize_buffers, in_engine. fold p0. unfold m. rewrite E. done. }
    split; [|done]. rewrite Ed in Hap. destruct Hap as [A1 A2 A3 A4 A5 A6 A7].
    change (buf (set_cur p' (cur p)) ENGINE) with (eb p'). rewrite Eb.
    unfold wreg, wgr, wroot in *. rewrite P1, P2, P4 in *. constructor; try done.
    destruct A7 as (A7 & _ & _). split; [exact A7|]. split; [exact Edb|done].
Qed.

(** Whatever the user has done in the client (and whatever others did to its
    backend): the client's changes arrive at the server. *)
Theorem C08_client_to_server isW O dc w p la lu ld :
  whist isW O w -> cur p = USER -> can_receive isW dc w (ub w) p (ub p) ->
  la ≡ₚ elements (badd (ub w)) -> lu ≡ₚ elements (bupd (ub w)) -> ld ≡ₚ elements (bdel (ub w)) ->
  exists p' w' m,
    serialize_buffers dc la lu ld w USER = (w', m) /\
    deserialize_buffers isW USER m p = (p', None) /\
    applied dc w (ub w) (expd w) p p' (ub p) (ub p') /\ ub w' = no_bufs.
Proof.
  intros Hh Hcur Hcan Ha Hu Hd. destruct (bo_inv _ (whist_ok _ _ _ Hh)) as [B1 B2 B3 B4 B5 B6].
  destruct (C08_replay isW dc w USER p USER la lu ld Hcur (conj B3 (conj B4 B5)) Hcan Ha Hu Hd)
    as (p' & w' & m & E1 & E2 & E3 & _ & _ & E4 & _).
  exists p', w', m. done.
Qed.

(** ** commit() of a client *)

Lemma commit_state w r :
  wroot w = Some r -> r ∈ wreg w ->
  exists w', w_commit None w = (w', None) /\ db w' = committed r w /\ core w' = core w /\
    ub w' = no_bufs /\ cur w' = cur w /\ expd w' = wreg w /\ (cur w = USER -> eb w' = no_bufs).
Proof.
  intros Hr Hin. destruct (enter_engine_same w) as (E1 & E2 & E3 & E4 & E5).
  exists (set_cur (expire_all (set_db (set_ub (enter_engine w) no_bufs) (committed r w))) (cur w)).
  assert (cur w = USER -> eb (enter_engine w) = no_bufs) as E6.
  { intros Hc. unfold enter_engine. by rewrite Hc, decide_False. }
  split.
  { unfold w_commit, in_engine. set (w0 := enter_engine w) in *. clearbody w0.
    assert (wroot w0 = Some r) as -> by (unfold wroot; by rewrite E1).
    assert (wreg w0 = wreg w) as -> by (unfold wreg; by rewrite E1).
    assert (wgr w0 = wgr w) as -> by (unfold wgr; by rewrite E1).
    rewrite decide_True by done. unfold committed. by rewrite E2, E4. }
  set (w0 := enter_engine w) in *. clearbody w0.
  split; [done|]. split; [exact E1|]. split; [done|]. split; [done|]. split; [|exact E6].
  simpl. unfold wreg. simpl. rewrite E1. unfold buids, no_bufs. simpl. apply set_eq. intros v. clear. set_solver.
Qed.

(** A commit() in the client writes the client's changes, and nothing else, to the
    backend of the server's session p, whose root is r; the response makes the
    client consider all its objects that the server knows as outdated. *)
Theorem C08_remote_commit isW O dc w p r la lu ld order :
  whist isW O w -> cur p = USER -> ub p = no_bufs -> can_receive isW dc w (ub w) p no_bufs ->
  la ≡ₚ elements (badd (ub w)) -> lu ≡ₚ elements (bupd (ub w)) -> ld ≡ₚ elements (bdel (ub w)) ->
  wroot p = Some r -> r ∈ wreg p -> r <> 0%N -> r ∉ bdel (ub w) -> 0%N ∉ bdel (ub w) -> no_uid r (db p) ->
  (forall x q, (x, TLink q 0%N) ∉ wgr p) -> order ∅ = [] ->
  exists w' m p' m',
    serialize_buffers dc la lu ld w USER = (w', m) /\
    run_command isW (w_commit None) dc order m p = (p', Ok m') /\
    (forall u, u ∈ bupd (ub w) -> triples_of (view r (db p')) u = triples_of (wgr w) u) /\
    (forall u, u ∈ badd (ub w) -> triples_of (view r (db p')) u = triples_of (view r (db p)) u ∪ triples_of (wgr w) u) /\
    (forall u, u ∈ bdel (ub w) -> triples_of (view r (db p')) u = ∅) /\
    (forall u, u ∉ buids (ub w) -> triples_of (view r (db p')) u = triples_of (view r (db p)) u) /\
    ub p' = no_bufs /\
    exists w'', deserialize_buffers isW ENGINE m' w' = (w'', None) /\
      ub w'' = no_bufs /\ core w'' = core w /\ db w'' = db w /\ expd w'' = (expd w ∪ wreg p') ∩ wreg w.
Proof.
  intros Hh Hcur Hub Hcan Ha Hu Hd Hr Hrin Hr0 Hrd H0d Hno Hnz Hord.
  destruct (bo_nz _ (whist_ok _ _ _ Hh)) as [N1 N2 N3].
  pose proof (whist_ok _ _ _ Hh) as Hbo. destruct (bo_inv _ Hbo) as [B1 B2 B3 B4 B5 B6].
  rewrite <- Hub in Hcan.
  destruct (C08_replay isW dc w USER p USER la lu ld Hcur (conj B3 (conj B4 B5)) Hcan Ha Hu Hd)
    as (p1 & w' & m & E1 & E2 & E3 & _ & _ & W1 & W2 & W3 & W4).
  destruct E3 as [A1 A2 A3 A4 A5 A6 [A7 [A8 A9]]]. cbn [buf] in *. rewrite Hub in A5.
  assert (ub p1 = ub w) as Hb1.
  { rewrite A5. destruct (ub w) as [x y z]. simpl in *. f_equal; clear -B3 B4 B5; set_solver. }
  assert (commit_ok r p1) as Hok.
  { constructor; [done| | |].
    - intros x q Hin. destruct (decide (x ∈ buids (ub w))) as [Hx|Hx].
      + unfold buids in Hx. rewrite elem_of_union in Hx. destruct Hx as [Hx|Hx].
        * assert ((x, TLink q 0%N) ∈ triples_of (wgr p1) x) as H by (by apply elem_triples_of).
          rewrite A2 in H by done. apply elem_triples_of in H as [H _]. by apply N2 in H.
        * assert ((x, TLink q 0%N) ∈ triples_of (wgr p1) x) as H by (by apply elem_triples_of).
          rewrite A3 in H by done. by apply elem_of_singleton in H.
      + apply A4 in Hin; [|done]. destruct Hin as [H|(_ & [c ?] & _)]; [by apply Hnz in H|done].
    - by rewrite A8.
    - rewrite Hb1. unfold buids. rewrite !not_elem_of_union.
      split_and!; [intros H; by apply B1 in H|intros H; by apply B2 in H|done]. }
  assert (r ∈ wreg p1) as Hrin1.
  { rewrite A1. apply elem_of_difference. split; [|done]. apply elem_of_union. by left. }
  destruct (commit_state p1 r) as (p2 & F1 & F2 & F3 & F4 & F5 & F6 & F7); [by rewrite A7|done|].
  assert (eb p2 = no_bufs) as F8 by (apply F7; by rewrite A9).
  exists w', m, (set_eb p2 no_bufs), (Msg [] [] [] (expd p2)). split; [exact E1|]. split.
  { unfold run_command. rewrite E2, F1. unfold serialize_buffers. rewrite F8. simpl.
    unfold elements. rewrite Hord. done. }
  change (db (set_eb p2 no_bufs)) with (db p2). rewrite F2.
  pose proof (fun x q => elem_committed_gen p1 r x q Hok) as Hel. rewrite Hb1, A8 in Hel.
  split; [|split; [|split; [|split; [|split; [exact F4|]]]]].
  - intros u Hx. apply set_eq. intros [x q]. rewrite <- A2 by (apply elem_of_union; by right).
    rewrite !elem_triples_of. simpl. split; intros [Hin ->]; (split; [|done]).
    + apply Hel in Hin as [_ [[_ ?]|[? _]]]; done.
    + apply Hel. split; [intros H; by apply (B5 u)|by left].
  - intros u Hx. apply set_eq. intros [x q]. rewrite <- A2 by (apply elem_of_union; by left).
    rewrite elem_of_union, !elem_triples_of. simpl. split.
    + intros [Hin ->]. apply Hel in Hin as [_ [[? _]|[_ [?|[_ ?]]]]]; [|tauto..]. by destruct (B3 u).
    + intros Hin. assert (x = u) as -> by tauto. split; [|done].
      apply Hel. split; [intros H; by apply (B4 u)|]. right. split; [intros H; by apply (B3 u)|]. tauto.
  - intros u Hx. apply set_eq. intros [x q]. rewrite elem_triples_of. simpl.
    split; [|intros H; by apply not_elem_of_empty in H]. intros [Hin ->]. apply Hel in Hin as [Hn _]; done.
  - intros u Hx. unfold buids in Hx. rewrite !not_elem_of_union in Hx. destruct Hx as [[X1 X2] X3].
    apply set_eq. intros [x q]. rewrite !elem_triples_of. simpl. split; intros [Hin ->]; (split; [|done]).
    + apply Hel in Hin as [_ [[? _]|[_ [?|[? _]]]]]; done.
    + apply Hel. split; [done|]. right. split; [done|]. by left.
  - assert (wreg (set_eb p2 no_bufs) = wreg p1) as -> by (unfold wreg; simpl; by rewrite F3).
    rewrite F6. unfold deserialize_buffers, deserialize_body, in_engine.
    destruct (enter_engine_same w') as (G1 & G2 & G3 & G4 & G5).
    set (w0 := enter_engine w') in *. clearbody w0.
    eexists. split; [done|]. simpl. unfold wreg. rewrite ?G1, ?G2, ?G3, ?G4, ?W1, ?W2, ?W3, ?W4.
    split; [done|]. split; [done|]. split; [done|].
    unfold buids, no_bufs. simpl. apply set_eq. intros v. clear. set_solver.
Qed.

(** ** Examples *)
Definition acceptb (isW : cls -> bool) (p : wsess) (g : graph) (u : uid) : bool :=
  negb (bool_decide (classes g u = [])) &&
  forallb (fun c => negb (isW c) || bool_decide (wroot p = Some u)) (classes g u).
Lemma acceptb_ok isW p g u : acceptb isW p g u = true -> acceptable isW p g u.
Proof.
  unfold acceptb. rewrite andb_true_iff, negb_true_iff, forallb_forall. intros [H1 H2].
  apply bool_decide_eq_false in H1. split.
  - destruct (classes g u) as [|c l] eqn:E; [done|]. exists c. apply elem_classes. rewrite E. left.
  - intros c Hc HW. apply elem_classes, elem_of_list_In, H2 in Hc. rewrite HW in Hc.
    by apply bool_decide_eq_true in Hc.
Qed.

Local Instance bufs_eq_dec : EqDecision bufs.
Proof. solve_decision. Defined.
Definition wop_okb (w : wsess) (o : wop) : bool :=
  match o with
  | WCreate _ u _ _ => bool_decide (u ∉ wreg w) && bool_decide (u ∉ expd w)
  | WAdd a _ bs => bool_decide (a ∈ wreg w) && forallb (fun b => bool_decide (b ∈ wreg w)) bs
  | WRemove a _ _ _ | WSetAttr a _ _ | WDelete a | WGet a _ _ _ => bool_decide (a ∈ wreg w)
  | _ => true
  end.
Fixpoint wok_runb (isW : cls -> bool) (O : onto) (w : wsess) (os : list wop) : bool :=
  match os with [] => true | o :: os' => wop_okb w o && wok_runb isW O (wstep isW O w o) os' end.
Lemma wop_okb_ok w o : wop_okb w o = true -> wop_ok w o.
Proof.
  destruct o; simpl; rewrite ?andb_true_iff, ?bool_decide_eq_true; try done.
  intros [H1 H2]. split; [done|]. apply Forall_forall. intros b Hb. rewrite forallb_forall in H2.
  apply H2 in Hb. by apply bool_decide_eq_true in Hb.
Qed.
Lemma whist_run isW O os : forall w, whist isW O w -> wok_runb isW O w os = true -> whist isW O (wrun isW O w os).
Proof.
  induction os as [|o os IH]; intros w Hw; simpl; [done|]. rewrite andb_true_iff. intros [H1 H2].
  apply (IH (wstep isW O w o)); [|done]. constructor; [done|by apply wop_okb_ok].
Qed.

(** The client: objects 41 added, 10, 21 and 31 updated, 22 deleted. *)
Definition exC : wsess := wrun exW exO exW1 [WCreate [] 41%N 4%N []; WAdd 21%N 5%N [41%N]].
(** The server: the state at the last commit; it knows 10, 21, 22 and 31. *)
Definition exSrv : wsess := wrun exW exO exW0
  [WGet 10%N [] None None; WCreate [] 31%N 3%N [(30%N, (7%N, 7%N))]; WAdd 10%N 1%N [31%N];
   WGet 21%N [] None None; WCommit None].
Definition exCops : list wop :=
  WCreate [21%N; 10%N] 10%N 9%N [] :: exOps ++ [WCreate [] 41%N 4%N []; WAdd 21%N 5%N [41%N]].
Definition exDc (u : uid) : cls := 4%N.

Local Opaque exC exSrv wreg wgr.
Example C08_example :
  whist exW exO exC /\ cur exSrv = USER /\ ub exSrv = no_bufs /\
  can_receive exW exDc exC (ub exC) exSrv (ub exSrv) /\
  badd (ub exC) = {[41%N]} /\ bupd (ub exC) = {[10%N; 21%N; 31%N]} /\ bdel (ub exC) = {[22%N]} /\
  wroot exSrv = Some 10%N /\ 10%N ∈ wreg exSrv /\ no_uid 10%N (db exSrv) /\
  (forall x q, (x, TLink q 0%N) ∉ wgr exSrv) /\
  (21%N, TAttr 30%N (1%N, 1%N)) ∈ wgr exSrv /\ (21%N, TAttr 30%N (2%N, 2%N)) ∈ wgr exC.
Proof.
  split.
  { Transparent exC. assert (exC = wrun exW exO (w_empty exDb) exCops) as ->.
    { unfold exC, exW1, exW0, wrun, exCops. rewrite <- !foldl_app. reflexivity. }
    Opaque exC. apply whist_run; [constructor|]. vm_compute. reflexivity. }
  split; [dec|]. split; [dec|]. split.
  { constructor.
    - dec.
    - dec.
    - dec.
    - intros u Hu. apply acceptb_ok. revert u Hu.
      change (set_Forall (fun u => acceptb exW exSrv (wgr exC) u = true) (badd (ub exC) ∪ bupd (ub exC))). dec.
    - done.
    - change (set_Forall (fun u => triples_of (wgr exSrv) u ⊆ triples_of (wgr exC) u) (badd (ub exC))). dec.
    - dec.
    - dec.
    - dec. }
  split; [dec|]. split; [dec|]. split; [dec|]. split; [dec|]. split; [dec|]. split.
  { assert (forall t, t ∈ db exSrv -> fst t <> 10%N /\ forall q, snd t <> TLink q 10%N) as H.
    { refine (graph_all (db exSrv) _ _). vm_compute elements. repeat constructor; simpl; done. }
    intros x p Hin. by apply (H (x, p)). }
  split; [|split; dec].
  assert (forall t, t ∈ wgr exSrv -> forall q, snd t <> TLink q 0%N) as H.
  { refine (graph_all (wgr exSrv) _ _). vm_compute elements. repeat constructor; simpl; done. }
  intros x q Hin. by apply (H _ Hin q).
Qed.

(** One commit() of a client: the client and the server afterwards. *)
Definition exchange (isW : cls -> bool) (dc : uid -> cls) (w p : wsess) : wsess * wsess :=
  let '(w1, m) := serialize_buffers dc (elements (badd (ub w))) (elements (bupd (ub w)))
                    (elements (bdel (ub w))) w USER in
  match run_command isW (w_commit None) dc elements m p with
  | (p1, Ok m') => (fst (deserialize_buffers isW ENGINE m' w1), p1)
  | (p1, Err _) => (w1, p1)
  end.

(** A deleted object's type stays in the server's graph: when the client constructs
    an object of another class under the same uid, it gets both classes at the
    server and, with the next commit, in the backend. *)
Theorem C08_recreated_object_refuted :
  exists isW O dc w p, whist isW O w /\ can_receive isW dc w (ub w) p (ub p) /\ ub p = no_bufs /\
    let w1 := fst (exchange isW dc w p) in let p1 := snd (exchange isW dc w p) in
    let w2 := wstep isW O w1 (WCreate [] 22%N 3%N []) in
    let p2 := snd (exchange isW dc w2 p1) in
    22%N ∉ wreg w1 /\ 22%N ∉ wreg p1 /\ (forall q, (22%N, q) ∉ wgr w1) /\ (forall q, (22%N, q) ∉ db p1) /\
    triples_of (wgr w2) 22%N = {[ (22%N, TType 3%N) ]} /\
    (22%N, TType 4%N) ∈ wgr p2 /\ (22%N, TType 4%N) ∈ db p2.
Proof.
  exists exW, exO, exDc, exC, exSrv. destruct C08_example as (H1 & _ & H2 & H3 & _).
  split; [exact H1|]. split; [exact H3|]. split; [exact H2|].
  assert (forall (g : graph) (u : uid), triples_of g u = ∅ -> forall q, (u, q) ∉ g) as Hno.
  { clear. intros g u He q Hin. assert ((u, q) ∈ triples_of g u) as H by (by apply elem_triples_of).
    rewrite He in H. set_solver. }
  cbv zeta. split; [dec|]. split; [dec|]. split; [apply Hno; dec|]. split; [apply Hno; dec|].
  split; [dec|]. split; dec.
Qed.

Print Assumptions C08_replay.
Print Assumptions C08_client_to_server.
Print Assumptions C08_remote_commit.
Print Assumptions C08_recreated_object_refuted.
