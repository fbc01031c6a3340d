(** Proofs about Cuds2dot (Print.v). *)
From stdpp Require Import base sets list gmap relations.
From Verif Require Import Prelude Utf8 Cuds CudsProofs Traverse Utils Print.
Local Open Scope nat_scope.

(** The objects for which a node is drawn and the connections for which an edge is
    drawn, in order. *)
Fixpoint dnodes (g : list dot) : list uid :=
  match g with
  | [] => []
  | DNode _ u _ :: l => u :: dnodes l
  | DEdge _ _ _ _ _ :: l => dnodes l
  end.
Fixpoint dedges (g : list dot) : list (uid * rel * uid) :=
  match g with
  | [] => []
  | DNode _ _ _ :: l => dedges l
  | DEdge _ _ a r b :: l => (a, r, b) :: dedges l
  end.
Lemma dnodes_app g1 g2 : dnodes (g1 ++ g2) = dnodes g1 ++ dnodes g2.
Proof. induction g1 as [|[]]; simpl; congruence. Qed.
Lemma dedges_app g1 g2 : dedges (g1 ++ g2) = dedges g1 ++ dedges g2.
Proof. induction g1 as [|[]]; simpl; congruence. Qed.

(** The ids written for the objects. *)
Definition ids_ok (rt : uid) (x : dot) : Prop :=
  match x with
  | DNode i u f => i = shorten_uid u /\ (f = true <-> shorten_uid u = shorten_uid rt)
  | DEdge i j a _ b => i = shorten_uid a /\ j = shorten_uid b
  end.

Section Proofs.
  Context (O : onto) (s : sess) (rt : uid) (univ : gset uid).
  Notation nbrs := (iter_nbrs O s (Some (o_relationship O))).
  Context (Hnd : forall u, NoDup (nbrs u)) (Hcl : forall u v, u ∈ univ -> v ∈ nbrs u -> v ∈ univ).
  Definition rel_between (a : uid) (r : rel) (b : uid) : Prop := r ∈ relationships_between s a b.
  Definition nbr (a b : uid) : Prop := b ∈ nbrs a.

  Definition edges_of (a b : uid) : list dot :=
    map (fun r => DEdge (shorten_uid a) (shorten_uid b) a r b) (elements (relationships_between s a b)).
  Lemma dnodes_edges a b : dnodes (edges_of a b) = [].
  Proof. unfold edges_of. induction (elements _); done. Qed.
  Lemma dedges_edges a b : dedges (edges_of a b) = (fun r => (a, r, b)) <$> elements (relationships_between s a b).
  Proof. unfold edges_of. induction (elements _); csimpl; congruence. Qed.
  Lemma elem_edges a b p r q : (p, r, q) ∈ dedges (edges_of a b) <-> p = a /\ q = b /\ rel_between a r b.
  Proof.
    rewrite dedges_edges, elem_of_list_fmap. unfold rel_between. setoid_rewrite elem_of_elements.
    split; [intros (r' & [= -> -> ->] & ?); done|]. intros (-> & -> & ?). eauto.
  Qed.
  Lemma NoDup_edges a b : NoDup (dedges (edges_of a b)).
  Proof.
    rewrite dedges_edges. apply NoDup_fmap_2; [|apply NoDup_elements]. intros ??. congruence.
  Qed.

  Record dseg (a : uid) (l : list uid) (V V' : gset uid) (x : list dot) : Prop := DSeg {
    ds_vis : forall y, y ∈ V' <-> y ∈ V \/ y ∈ dnodes x;
    ds_nodup : NoDup (dnodes x);
    ds_new : forall y, y ∈ dnodes x -> y ∉ V;
    ds_edges : forall p r q, (p, r, q) ∈ dedges x <->
      (p = a /\ q ∈ l /\ rel_between a r q) \/ (p ∈ dnodes x /\ q ∈ nbrs p /\ rel_between p r q);
    ds_nodupe : NoDup (dedges x);
    ds_tgt : forall q, q ∈ l -> q ∈ V';
    ds_tgt2 : forall p q, p ∈ dnodes x -> q ∈ nbrs p -> q ∈ V';
    ds_univ : forall y, y ∈ dnodes x -> y ∈ univ;
    ds_reach : forall y, y ∈ dnodes x -> rtc nbr a y;
    ds_ids : Forall (ids_ok rt) x
  }.

  Lemma ids_edges a b : Forall (ids_ok rt) (edges_of a b).
  Proof. unfold edges_of. apply List.Forall_map, Forall_forall. by intros r _. Qed.

  Definition good_add (f : nat) (rec : drawing -> uid -> option drawing) : Prop :=
    forall d a, a ∈ univ -> a ∈ d_visited d -> size (univ ∖ d_visited d) < f ->
      exists V' x, rec d a = Some (Drawing V' (d_graph d ++ x)) /\ dseg a (nbrs a) (d_visited d) V' x.

  Lemma dseg_nil a V : dseg a [] V V [].
  Proof.
    split; simpl.
    - intros y. rewrite elem_of_nil. tauto.
    - constructor.
    - intros y Hy. by apply elem_of_nil in Hy.
    - intros p r q. rewrite !elem_of_nil. naive_solver.
    - constructor.
    - intros q Hq. by apply elem_of_nil in Hq.
    - intros p q Hq. by apply elem_of_nil in Hq.
    - intros y Hy. by apply elem_of_nil in Hy.
    - intros y Hy. by apply elem_of_nil in Hy.
    - constructor.
  Qed.

  Lemma dseg_again a b l V V' x :
    a ∈ V -> b ∈ V -> b ∉ l -> dseg a l V V' x -> dseg a (b :: l) V V' (edges_of a b ++ x).
  Proof.
    intros Ha Hb Hbl H. split; rewrite ?dnodes_app, ?dedges_app, ?dnodes_edges; cbn [app].
    - apply H.
    - apply H.
    - apply H.
    - intros p r q. rewrite elem_of_app, elem_edges, (ds_edges _ _ _ _ _ H), elem_of_cons. naive_solver.
    - apply NoDup_app. split; [apply NoDup_edges|]. split; [|apply H].
      intros [[p r] q] H1 H2. apply elem_edges in H1 as (-> & -> & _).
      apply (ds_edges _ _ _ _ _ H) in H2 as [(_ & Hq & _)|(Hp & _)]; [contradiction|].
      apply (ds_new _ _ _ _ _ H) in Hp. contradiction.
    - intros q. rewrite elem_of_cons. intros [->|Hq]; [|by apply (ds_tgt _ _ _ _ _ H)]. apply (ds_vis _ _ _ _ _ H). by left.
    - apply H.
    - apply H.
    - apply H.
    - apply Forall_app. split; [apply ids_edges|apply H].
  Qed.

  Lemma dseg_sub a b l V V1 V' i f x1 x2 :
    a ∈ V -> b ∉ V -> b ∉ l -> b ∈ univ -> b ∈ nbrs a -> ids_ok rt (DNode i b f) ->
    dseg b (nbrs b) (V ∪ {[b]}) V1 x1 -> dseg a l V1 V' x2 ->
    dseg a (b :: l) V V' (edges_of a b ++ DNode i b f :: x1 ++ x2).
  Proof.
    intros Ha Hb Hbl Hbu Hab Hid H1 H2.
    assert (Hab' : a <> b) by congruence.
    assert (HV1 : forall y, y ∈ V1 <-> y ∈ V \/ y = b \/ y ∈ dnodes x1).
    { intros y. rewrite (ds_vis _ _ _ _ _ H1), elem_of_union, elem_of_singleton. tauto. }
    assert (Hn1 : forall y, y ∈ dnodes x1 -> y ∉ V /\ y <> b).
    { intros y Hy%(ds_new _ _ _ _ _ H1). rewrite elem_of_union, elem_of_singleton in Hy. tauto. }
    assert (Hn2 : forall y, y ∈ dnodes x2 -> y ∉ V /\ y <> b /\ y ∉ dnodes x1).
    { intros y Hy%(ds_new _ _ _ _ _ H2). rewrite HV1 in Hy. tauto. }
    assert (Hnodes : dnodes (edges_of a b ++ DNode i b f :: x1 ++ x2) = b :: dnodes x1 ++ dnodes x2).
    { rewrite dnodes_app, dnodes_edges. simpl. by rewrite dnodes_app. }
    assert (Hedges : dedges (edges_of a b ++ DNode i b f :: x1 ++ x2) = dedges (edges_of a b) ++ dedges x1 ++ dedges x2).
    { rewrite dedges_app. simpl. by rewrite dedges_app. }
    split; rewrite ?Hnodes, ?Hedges.
    - intros y. rewrite (ds_vis _ _ _ _ _ H2), HV1, elem_of_cons, elem_of_app. tauto.
    - apply stdpp.list.NoDup_cons. split.
      + rewrite elem_of_app. intros [?%Hn1|?%Hn2]; tauto.
      + apply NoDup_app. split; [apply H1|]. split; [|apply H2]. intros y Hy1 Hy2%Hn2. tauto.
    - intros y. rewrite elem_of_cons, elem_of_app. intros [->|[?%Hn1|?%Hn2]]; tauto.
    - intros p r q. rewrite !elem_of_app, elem_edges, (ds_edges _ _ _ _ _ H1), (ds_edges _ _ _ _ _ H2), !elem_of_cons, elem_of_app.
      split.
      + intros [(-> & -> & ?)|[[(-> & ? & ?)|(? & ? & ?)]|[(-> & ? & ?)|(? & ? & ?)]]]; tauto.
      + intros [(-> & [->|?] & ?)|([->|[?|?]] & ? & ?)]; tauto.
    - apply NoDup_app. split; [apply NoDup_edges|]. split.
      + intros [[p r] q] He. apply elem_edges in He as (-> & -> & _). rewrite elem_of_app.
        rewrite (ds_edges _ _ _ _ _ H1), (ds_edges _ _ _ _ _ H2).
        intros [[(? & _)|(?%Hn1 & _)]|[(_ & ? & _)|(?%Hn2 & _)]]; tauto.
      + apply NoDup_app. split; [apply H1|]. split; [|apply H2].
        intros [[p r] q] He. rewrite (ds_edges _ _ _ _ _ H2).
        apply (ds_edges _ _ _ _ _ H1) in He as [(-> & _)|(Hp & _)].
        * intros [(? & _)|(?%Hn2 & _)]; [congruence|tauto].
        * intros [(-> & _)|(?%Hn2 & _)]; [apply Hn1 in Hp; tauto|tauto].
    - intros q. rewrite elem_of_cons. intros [->|Hq]; [|by apply (ds_tgt _ _ _ _ _ H2)].
      apply (ds_vis _ _ _ _ _ H2). left. apply HV1. tauto.
    - intros p q. rewrite elem_of_cons, elem_of_app. intros [->|[Hp|Hp]] Hq.
      + apply (ds_vis _ _ _ _ _ H2). left. by apply (ds_tgt _ _ _ _ _ H1).
      + apply (ds_vis _ _ _ _ _ H2). left. by eapply (ds_tgt2 _ _ _ _ _ H1).
      + by eapply (ds_tgt2 _ _ _ _ _ H2).
    - intros y. rewrite elem_of_cons, elem_of_app. intros [->|[Hp|Hp]]; [done|by apply H1|by apply H2].
    - intros y. rewrite elem_of_cons, elem_of_app. intros [->|[Hp|Hp]].
      + by apply rtc_once.
      + eapply rtc_l; [exact Hab|by apply H1].
      + by apply H2.
    - apply Forall_app. split; [apply ids_edges|]. constructor; [done|]. apply Forall_app. split; [apply H1|apply H2].
  Qed.

  Lemma add_related_spec f rec a l d :
    good_add f rec -> a ∈ univ -> (forall b, b ∈ l -> b ∈ nbrs a) -> NoDup l ->
    a ∈ d_visited d -> size (univ ∖ d_visited d) <= f ->
    exists V' x, add_related s rt rec a l d = Some (Drawing V' (d_graph d ++ x)) /\ dseg a l (d_visited d) V' x.
  Proof.
    intros Hrec Hau Hsub. revert d. induction l as [|b l IH]; intros [V g] HND Ha Hsz; cbn [add_related].
    { exists V, []. rewrite app_nil_r. split; [done|]. apply dseg_nil. }
    apply stdpp.list.NoDup_cons in HND as [Hbl HND]. simpl in Ha, Hsz.
    assert (IH' := IH (fun b Hb => Hsub b (elem_of_list_further _ _ _ Hb))). clear IH.
    unfold add_edges at 1. cbn [d_visited d_graph]. fold (edges_of a b). destruct (decide (b ∈ V)) as [Hb|Hb].
    - destruct (IH' (Drawing V (g ++ edges_of a b)) HND Ha Hsz) as (V' & x & Hx & Hs).
      exists V', (edges_of a b ++ x). simpl in Hx. rewrite app_assoc. split; [exact Hx|]. by apply dseg_again.
    - unfold visit, add_node. cbn [d_visited d_graph].
      assert (Hbu : b ∈ univ) by (eapply Hcl; [exact Hau|apply Hsub; by left]).
      match goal with |- context [rec ?d b] => destruct (Hrec d b) as (V1 & x1 & -> & Hs1) end.
      + done.
      + simpl. set_solver.
      + simpl. eapply Nat.lt_le_trans; [|exact Hsz]. apply subset_size. split; [set_solver|].
        intros Hss. assert (b ∈ univ ∖ (V ∪ {[b]})) by (apply Hss; set_solver). set_solver.
      + simpl in Hs1. cbn [d_graph].
        assert (HV1 : V ⊆ V1) by (intros y Hy; apply (ds_vis _ _ _ _ _ Hs1); set_solver).
        match goal with |- context [add_related s rt rec a l ?d] =>
          destruct (IH' d) as (V' & x & Hx & Hs) end.
        * done.
        * by apply HV1.
        * simpl. etrans; [|exact Hsz]. apply subseteq_size. set_solver.
        * exists V', (edges_of a b ++ DNode (shorten_uid b) b (bool_decide (shorten_uid b = shorten_uid rt)) :: x1 ++ x).
          split.
          -- rewrite Hx. unfold add_edges. cbn [d_graph]. fold (edges_of a b). rewrite <- !app_assoc. cbn [app]. reflexivity.
          -- eapply dseg_sub; try done; [apply Hsub; by left|]. split; [done|]. apply bool_decide_eq_true.
  Qed.

  Lemma add_directly_related_spec f : good_add f (add_directly_related O s rt f).
  Proof.
    induction f as [|f IH]; intros d a Ha Hv Hsz; [lia|]. cbn [add_directly_related].
    eapply (add_related_spec f); [exact IH|done|done|apply Hnd|done|lia].
  Qed.
End Proofs.
