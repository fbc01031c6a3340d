(** Proofs about CudsX.v. *)
From stdpp Require Import base list gmap countable.
From Verif Require Import Prelude Cuds CudsProofs CudsX.

(** ** Frame: only the target session changes *)
Definition same_but (k : sid) (w w' : world) : Prop := forall k', k' <> k -> w' k' = w k'.
Lemma same_refl k w : same_but k w w.
Proof. done. Qed.
Lemma same_trans k a b c : same_but k a b -> same_but k b c -> same_but k a c.
Proof. intros H1 H2 k' Hk. by rewrite (H2 k' Hk), (H1 k' Hk). Qed.
Lemma same_upd k w s : same_but k w (upd w k s).
Proof. intros k' Hk. unfold upd. by rewrite decide_False. Qed.
Lemma same_set k w o g : o_sid o = k -> same_but k w (set_graph w o g).
Proof. intros <-. apply same_upd. Qed.
Lemma upd_same w k s : upd w k s k = s.
Proof. unfold upd. by rewrite decide_True. Qed.

Section Frame.
  Context (O : onto) (mk : cls -> list (attr * lit) -> res (list (attr * lit))).

  Lemma foldl_same {A} (f : world -> A -> world) k l w :
    (forall w a, a ∈ l -> same_but k w (f w a)) -> same_but k w (foldl f w l).
  Proof.
    revert w. induction l as [|a l IH]; intros w Hf; simpl; [done|].
    eapply same_trans; [apply Hf; left|]. apply IH. intros w' b Hb. apply Hf. by right.
  Qed.
  Lemma create_recycle_same w c kw k u : same_but k w (fst (create_recycle mk w c kw k u)) /\
    (forall o, snd (create_recycle mk w c kw k u) = Ok o -> o = Obj k u).
  Proof.
    unfold create_recycle. case_decide as Hd.
    - destruct (mk c kw); simpl; (split; [apply same_upd|congruence]).
    - destruct (mk c kw) as [attrs|e]; simpl; [|done]. destruct (create (w k) u c attrs) as [s' [e|]]; simpl; (split; [apply same_upd|congruence]).
  Qed.
  Lemma create_from_same w src k : same_but k w (fst (create_from mk w src k)) /\
    (forall o, snd (create_from mk w src k) = Ok o -> o = Obj k (o_uid src)).
  Proof.
    unfold create_from. case_decide as Hd; [by simpl|]. destruct (classes _ _) as [|c ?]; [by simpl|].
    pose proof (create_recycle_same w c (attr_dict (graph_of w src) (o_uid src)) k (o_uid src)) as [H1 H2].
    destruct (create_recycle _ _ _ _ _ _) as [w1 [cl|e]]; simpl in *; [|done].
    pose proof (H2 cl eq_refl) as ->. split; [|congruence]. eapply same_trans; [exact H1|].
    apply foldl_same. intros w' r _. eapply same_trans; [|apply foldl_same; intros w'' v _; by apply same_set]. by apply same_set.
  Qed.
  Lemma fix_new_parents_same k new l : forall wm,
    (forall x p, (x, Some p) ∈ l -> o_sid p = k) ->
    same_but k (fst wm) (fst (foldl (fix_new_parent O new) wm l)).
  Proof.
    induction l as [|[[v r] p] l IH]; intros [w m] Hl; simpl; [done|].
    eapply same_trans; [|apply IH; intros x p' Hin; eapply Hl; by right].
    destruct (active O r); [done|]. destruct p as [p|]; [|done]. simpl. apply same_set. eapply Hl. left.
  Qed.
  Lemma fix_old_neighbors_same k new og l : o_sid new = k -> forall w,
    (forall x p, (x, Some p) ∈ l -> o_sid p = k) ->
    same_but k w (fst (fix_old_neighbors O new og w l)).
  Proof.
    intros Hk. induction l as [|[[v r] p] l IH]; intros w Hl; simpl; [done|].
    destruct p as [nb|]; [|done].
    assert (same_but k w (fst (fix_old_neighbor O new og w (v, r, Some nb)))) as H1.
    { simpl. destruct (active O r); simpl.
      - case_decide; [|done]. apply same_set. eapply Hl. left.
      - apply foldl_same. intros w' it _. by apply same_set. }
    simpl in H1. destruct (active O r); simpl in *; (eapply same_trans; [exact H1|]; apply IH; intros x p' Hin; eapply Hl; by right).
  Qed.
  Lemma load1_sid k w (l : list (uid * rel)) x p : (x, Some p) ∈ map (fun x => (x, load1 w k (fst x))) l -> o_sid p = k.
  Proof.
    rewrite elem_of_list_In, in_map_iff. intros (y & Hy & _). injection Hy as _ Hy. unfold load1 in Hy.
    case_decide; [|done]. by injection Hy as <-.
  Qed.
  Lemma fix_neighbors_same w k new old m : o_sid new = k -> same_but k w (fst (fix_neighbors O w new old k m)).
  Proof.
    intros Hk. unfold fix_neighbors.
    set (l1 := map _ (neighbor_diff O _ _ old true)).
    pose proof (fix_new_parents_same k new l1 (w, m)) as H1.
    destruct (foldl (fix_new_parent O new) (w, m) l1) as [w1 m1] eqn:E1. simpl in H1.
    specialize (H1 ltac:(intros x p; apply load1_sid)).
    destruct old as [og|]; [|done].
    set (l2 := map _ _). pose proof (fix_old_neighbors_same k new og l2 Hk w1 ltac:(intros x p; apply load1_sid)) as H2.
    destruct (fix_old_neighbors _ _ _ _ _) as [w2 [e|]]; simpl in *; by eapply same_trans.
  Qed.
  Lemma delete_missing_same k m w : (forall v o r, (v, (o, r)) ∈ m -> o_sid o = k) -> same_but k w (delete_missing w m).
  Proof. intros Hm. apply foldl_same. intros w' [v [o r]] Hin. apply same_set. by eapply Hm. Qed.

  (* all objects in [missing] are copies in the target session *)
  Definition missing_in (k : sid) (m : missing_t) : Prop := forall v o r, (v, (o, r)) ∈ m -> o_sid o = k.
  Lemma fix_new_parents_missing k new l : o_sid new = k -> forall wm, missing_in k (snd wm) -> missing_in k (snd (foldl (fix_new_parent O new) wm l)).
  Proof.
    intros Hk. induction l as [|[[v r] p] l IH]; intros [w m] Hm; simpl; [done|]. apply IH.
    destruct (active O r); [done|]. destruct p as [p|]; [done|]. simpl. intros v' o' r' Hin.
    apply elem_of_app in Hin as [Hin|Hin]; [by eapply Hm|]. apply elem_of_list_singleton in Hin. by injection Hin as -> -> ->.
  Qed.
  Lemma fix_neighbors_missing w k new old m m' : o_sid new = k -> missing_in k m ->
    snd (fix_neighbors O w new old k m) = Ok m' -> missing_in k m'.
  Proof.
    intros Hk Hm. unfold fix_neighbors.
    set (l1 := map _ (neighbor_diff O _ _ old true)).
    pose proof (fix_new_parents_missing k new l1 Hk (w, m) Hm) as H1.
    destruct (foldl (fix_new_parent O new) (w, m) l1) as [w1 m1] eqn:E1. simpl in H1.
    destruct old as [og|]; [|simpl; by intros [= <-]]. destruct (fix_old_neighbors _ _ _ _ _) as [w2 [e|]]; simpl; [done|by intros [= <-]].
  Qed.
  Lemma add_children_to w self new getter xs : forall queue stored q st, add_children O w self new getter xs queue stored = Ok (q, st) ->
    forall it, it ∈ q -> it ∈ queue \/ i_to it = new.
  Proof.
    induction xs as [|[r v] xs IH]; intros queue stored q st; simpl; [intros [= <- <-] it; by left|].
    case_decide; [apply IH|]. destruct (get _ _ _ _ _ _) as [[[u|]|]|]; try done. intros Hq it Hit.
    destruct (IH _ _ _ _ Hq it Hit) as [Hi|Hi]; [|by right]. apply elem_of_app in Hi as [Hi|Hi]; [by left|right].
    apply elem_of_list_singleton in Hi. by subst.
  Qed.

  Lemma store_loop_same fuel self k : forall w queue stored m res,
    (forall it, it ∈ queue -> o_sid (i_to it) = k) -> missing_in k m ->
    (forall b, res = Some b -> o_sid b = k) ->
    same_but k w (fst (store_loop O mk fuel self w queue stored m res)) /\
    (forall b, snd (store_loop O mk fuel self w queue stored m res) = Ok (Some b) -> o_sid b = k).
  Proof.
    induction fuel as [|fuel IH]; intros w [|it queue] stored m res Hq Hm Hr; simpl.
    - split; [by apply delete_missing_same|]. intros b [= Hb]. by apply Hr.
    - done.
    - split; [by apply delete_missing_same|]. intros b [= Hb]. by apply Hr.
    - pose proof (Hq it ltac:(left)) as Hk. rewrite Hk.
      pose proof (create_from_same w (i_new it) k) as [H1 H1'].
      destruct (create_from mk w (i_new it) k) as [w1 [cl|e]]; simpl in H1, H1'; [|done].
      pose proof (H1' cl eq_refl) as Hcl.
      assert (o_sid cl = k) as Hck by by rewrite Hcl.
      set (old := option_map _ _). set (m1 := filter _ m).
      pose proof (fix_neighbors_same w1 k cl old m1 Hck) as H2.
      pose proof (fix_neighbors_missing w1 k cl old m1) as H3.
      destruct (fix_neighbors O w1 cl old k m1) as [w2 [m2|e]]; simpl in H2, H3; [|split; [by eapply same_trans|done]].
      destruct (add_children _ _ _ _ _ _ _ _) as [[q2 st2]|e] eqn:Ea; [|split; [by eapply same_trans|done]].
      destruct (IH w2 q2 st2 m2 (match res with Some r => Some r | None => Some cl end)) as [F1 F2].
      + intros it' Hit'. destruct (add_children_to _ _ _ _ _ _ _ _ _ Ea it' Hit') as [?| ->]; [|done]. apply Hq. by right.
      + eapply H3; [done| |done]. intros v o r Hin. apply elem_of_list_filter in Hin as [_ Hin]. by eapply Hm.
      + destruct res as [r|]; intros b [= <-]; [by apply Hr|done].
      + split; [|done]. eapply same_trans; [exact H1|]. by eapply same_trans.
  Qed.
  Lemma recursive_store_same w self new old : same_but (o_sid self) w (fst (recursive_store O mk w self new old)) /\
    (forall b, snd (recursive_store O mk w self new old) = Ok (Some b) -> o_sid b = o_sid self).
  Proof.
    unfold recursive_store. apply store_loop_same; [|intros ??? Hin; by apply elem_of_nil in Hin|done].
    intros it Hit. apply elem_of_list_singleton in Hit. by subst.
  Qed.
  Lemma x_add_same a r bs : forall w, same_but (o_sid a) w (fst (x_add O mk w a r bs)).
  Proof.
    induction bs as [|b bs IH]; intros w; cbn [x_add]; [done|]. destruct (linked _ _ _ _); [done|].
    assert (exists w1 rb, (if decide (o_sid a = o_sid b) then (w, Ok b)
          else match recursive_store O mk w a b (load1 w (o_sid a) (o_uid b)) with
               | (w1, Ok (Some b')) => (w1, Ok b') | (w1, Ok None) => (w1, Err AttributeError) | (w1, Err e) => (w1, Err e) end) = (w1, rb) /\
          same_but (o_sid a) w w1 /\ (forall b', rb = Ok b' -> o_sid b' = o_sid a)) as (w1 & rb & -> & H1 & H2).
    { case_decide as Hd; [exists w, (Ok b); split; [done|]; split; [done|congruence]|].
      pose proof (recursive_store_same w a b (load1 w (o_sid a) (o_uid b))) as [H1 H2].
      destruct (recursive_store _ _ _ _ _ _) as [w1 [[b'|]|e]]; simpl in *; eexists _, _; (split; [done|]; split; [done|]); [|done|done].
      intros b2 [= <-]. by apply H2. }
    destruct rb as [b'|e]; [|done]. cbv zeta.
    match goal with |- context [x_add O mk ?w3 a r bs] => pose proof (IH w3) as H3; destruct (x_add O mk w3 a r bs) as [w4 res] end.
    simpl in *. eapply same_trans; [exact H1|]. eapply same_trans; [|exact H3].
    eapply same_trans; [|apply same_set; by apply H2]. by apply same_set.
  Qed.
  Lemma update_all_same a xs : forall w, same_but (o_sid a) w (fst (update_all O mk w a xs)).
  Proof.
    induction xs as [|[b old] xs IH]; intros w; cbn [update_all]; [done|]. case_decide; [done|].
    pose proof (recursive_store_same w a b (Some old)) as [H1 H2].
    destruct (recursive_store _ _ _ _ _ _) as [w1 [[b'|]|e]]; simpl in *; [|done|done].
    pose proof (IH w1) as H3. destruct (update_all _ _ w1 a xs) as [w2 res]. simpl in *. by eapply same_trans.
  Qed.
  Lemma x_update_same a bs w : same_but (o_sid a) w (fst (x_update O mk w a bs)).
  Proof.
    unfold x_update. destruct (get _ _ _ _ _ _) as [r|e]; [|done]. cbv zeta. destruct (forallb _ _); [|done]. apply update_all_same.
  Qed.
End Frame.

(** ** Pieces *)
Lemma bd_true (P : Prop) `{Decision P} : bool_decide P = true <-> P.
Proof. apply bool_decide_eq_true. Qed.
Lemma linked_true g u r v : linked g u r v = true <-> (u, TLink r v) ∈ g.
Proof. apply bool_decide_eq_true. Qed.
Lemma linked_false g u r v : linked g u r v = false <-> (u, TLink r v) ∉ g.
Proof. apply bool_decide_eq_false. Qed.

Lemma set_neighbor_spec g x r v cs t :
  t ∈ set_neighbor g x r v cs <-> t ∈ g \/ t = (x, TLink r v) \/ exists c, c ∈ cs /\ t = (v, TType c).
Proof.
  unfold set_neighbor. rewrite !elem_of_union, elem_of_singleton, elem_of_list_to_set, elem_of_list_In, in_map_iff.
  split; [intros [[?|?]|(c & ? & ?)]|intros [?|[?|(c & ? & ?)]]]; try tauto.
  - right. right. exists c. split; [by apply elem_of_list_In|done].
  - right. exists c. split; [done|by apply elem_of_list_In].
Qed.
Lemma own_spec u c attrs t :
  t ∈ own u c attrs <-> t = (u, TType c) \/ exists a l, (a, l) ∈ attrs /\ t = (u, TAttr a l).
Proof.
  unfold own. rewrite elem_of_union, elem_of_singleton, elem_of_list_to_set, elem_of_list_In, in_map_iff.
  split; [intros [?|([a l] & ? & ?)]|intros [?|(a & l & ? & ?)]]; try tauto.
  - right. exists a, l. split; [by apply elem_of_list_In|done].
  - right. exists (a, l). split; [done|by apply elem_of_list_In].
Qed.
Lemma no_links_spec g u t : t ∈ no_links g u <-> t ∈ g /\ forall r v, t <> (u, TLink r v).
Proof.
  unfold no_links. rewrite elem_of_filter. destruct t as [s [r v|c|a l]].
  - rewrite bool_decide_eq_true. split.
    + intros [H1 H2]. split; [done|]. intros r' v' [= -> -> ->]. done.
    + intros [H1 H2]. split; [|done]. intros ->. by apply (H2 r v).
  - split; [intros [_ ?]; split; [done|discriminate]|intros [? _]; done].
  - split; [intros [_ ?]; split; [done|discriminate]|intros [? _]; done].
Qed.
Lemma clear_rel_spec g x r t : t ∈ clear_rel g x r <-> t ∈ g /\ forall v, t <> (x, TLink r v).
Proof.
  unfold clear_rel. rewrite elem_of_filter. destruct t as [s [r' v|c|a l]].
  - rewrite negb_true_iff, andb_false_iff, !bool_decide_eq_false. split.
    + intros [H1 H2]. split; [done|]. intros v' [= -> -> ->]. by destruct H1.
    + intros [H1 H2]. split; [|done]. destruct (decide (s = x)) as [->|]; [|by left]. right. intros ->. by apply (H2 v).
  - split; [intros [_ ?]; split; [done|discriminate]|intros [? _]; done].
  - split; [intros [_ ?]; split; [done|discriminate]|intros [? _]; done].
Qed.
Lemma clone_link g u r v : (u, TLink r v) ∈ clone g u <-> (u, TLink r v) ∈ g.
Proof. unfold clone. rewrite elem_of_filter. simpl. rewrite bool_decide_eq_true_2 by done. simpl. tauto. Qed.
Lemma clone_sub g u t : t ∈ clone g u -> t ∈ g.
Proof. unfold clone. rewrite elem_of_filter. tauto. Qed.

Lemma elem_neighbor_diff O g1 u g2 na v r :
  (v, r) ∈ neighbor_diff O g1 u g2 na <->
  (u, TLink r v) ∈ g1 /\ (na = true -> active O r = false) /\
  (forall g, g2 = Some g -> (u, TLink r v) ∉ g).
Proof.
  unfold neighbor_diff. rewrite elem_of_list_In, in_flat_map. split.
  - intros (r' & Hr & Hin). destruct (na && active O r') eqn:Ea; [done|]. apply in_map_iff in Hin as (v' & [= -> ->] & Hin).
    apply elem_of_list_In, elem_of_list_filter in Hin as [Hf Ht]. apply elem_targets in Ht. split; [done|]. split.
    + intros ->. done.
    + intros g ->. apply negb_true_iff in Hf. by apply linked_false.
  - intros (H1 & H2 & H3). exists r. split; [apply elem_of_list_In, elem_rels_of; by exists v|].
    destruct (na && active O r) eqn:Ea.
    { apply andb_true_iff in Ea as [-> Ea]. rewrite H2 in Ea; done. }
    apply in_map_iff. exists v. split; [done|]. apply elem_of_list_In, elem_of_list_filter. split; [|by apply elem_targets].
    apply negb_true_iff. destruct g2 as [g|]; [|done]. apply linked_false. by apply H3.
Qed.
Lemma elem_active_links O g u r v : (r, v) ∈ active_links O g u <-> (u, TLink r v) ∈ g /\ active O r = true.
Proof.
  unfold active_links. rewrite elem_of_list_In, in_flat_map. split.
  - intros (r' & Hr & Hin). destruct (active O r') eqn:Ea; [|done]. apply in_map_iff in Hin as (v' & [= -> ->] & Hin).
    split; [|done]. by apply elem_of_list_In, elem_targets in Hin.
  - intros [H1 H2]. exists r. split; [apply elem_of_list_In, elem_rels_of; by exists v|]. rewrite H2. apply in_map_iff.
    exists v. split; [done|]. by apply elem_of_list_In, elem_targets.
Qed.

Lemma elem_attrs_of g u a : a ∈ attrs_of g u <-> exists l, (u, TAttr a l) ∈ g.
Proof.
  unfold attrs_of. rewrite elem_of_remove_dups, elem_of_list_omap. split.
  - intros ([s [r v|c|a' l]] & Hin & Hs); try done. case_decide; [|done]. injection Hs as ->. subst. exists l. by apply elem_of_elements.
  - intros [l Hl]. exists (u, TAttr a l). split; [by apply elem_of_elements|]. by rewrite decide_True.
Qed.
(** Every attribute has at most one value. *)
Definition single_values (g : graph) (u : uid) : Prop :=
  forall a l l', (u, TAttr a l) ∈ g -> (u, TAttr a l') ∈ g -> l = l'.
Lemma attr_dict_spec g u a l : single_values g u -> (a, l) ∈ attr_dict g u <-> (u, TAttr a l) ∈ g.
Proof.
  intros Hs. unfold attr_dict. rewrite elem_of_list_In, in_flat_map. split.
  - intros (a' & _ & Hin). destruct (list.last (attr_values g u a')) as [l'|] eqn:El; [|done].
    destruct Hin as [[= -> ->]|[]]. apply last_Some_elem_of in El. by apply elem_attr_values.
  - intros Hl. exists a. split; [apply elem_of_list_In, elem_attrs_of; by exists l|].
    destruct (list.last (attr_values g u a)) as [l'|] eqn:El.
    + apply last_Some_elem_of, elem_attr_values in El. rewrite (Hs _ _ _ Hl El). by left.
    + apply last_None in El. apply elem_attr_values in Hl. rewrite El in Hl. by apply elem_of_nil in Hl.
Qed.
Lemma classes_single g u c : (forall c', (u, TType c') ∈ g <-> c' = c) -> classes g u = [c].
Proof.
  intros Hc. apply NoDup_elem_singleton.
  - unfold classes. apply NoDup_remove_dups.
  - intros c'. by rewrite elem_classes.
Qed.
Lemma graph_of_set w o g : graph_of (set_graph w o g) o = g.
Proof. unfold graph_of, set_graph. by rewrite upd_same. Qed.
Lemma reg_set w o g : reg (set_graph w o g (o_sid o)) = reg (w (o_sid o)).
Proof. unfold set_graph. by rewrite upd_same. Qed.

(* folds that rewrite the graph of one handle *)
Lemma foldl_graph {A} (f : graph -> A -> graph) o l : forall w,
  let w' := foldl (fun w x => set_graph w o (f (graph_of w o) x)) w l in
  graph_of w' o = foldl f (graph_of w o) l /\ reg (w' (o_sid o)) = reg (w (o_sid o)).
Proof.
  induction l as [|x l IH]; intros w; simpl; [done|]. destruct (IH (set_graph w o (f (graph_of w o) x))) as [H1 H2]. simpl in H1, H2.
  rewrite H1, H2, graph_of_set, reg_set. done.
Qed.

Lemma links_copy (gs : graph) (u x : uid) r l : forall g t,
  t ∈ foldl (fun g v => set_neighbor g x r v (classes gs v)) g l <->
  t ∈ g \/ exists v, v ∈ l /\ (t = (x, TLink r v) \/ exists c, (v, TType c) ∈ gs /\ t = (v, TType c)).
Proof.
  induction l as [|v l IH]; intros g t; simpl.
  - split; [by left|]. intros [?|(v & Hv & _)]; [done|by apply elem_of_nil in Hv].
  - rewrite IH, set_neighbor_spec. split.
    + intros [[?|[?|(c & Hc & ?)]]|(v' & Hv' & ?)].
      * by left.
      * right. exists v. split; [left|by left].
      * right. exists v. split; [left|right; exists c; split; [by apply elem_classes|done]].
      * right. exists v'. split; [by right|done].
    + intros [?|(v' & Hv' & Hx)]; [by left; left|]. apply elem_of_cons in Hv' as [->|Hv'].
      * left. right. destruct Hx as [?|(c & Hc & ?)]; [by left|]. right. exists c. split; [by apply elem_classes|done].
      * right. by exists v'.
Qed.
Lemma rels_copy (gs : graph) (u x : uid) rs : forall g t, NoDup rs ->
  t ∈ foldl (fun g r => foldl (fun g v => set_neighbor g x r v (classes gs v)) (clear_rel g x r) (targets gs u r)) g rs <->
  (t ∈ g /\ (forall r v, r ∈ rs -> t <> (x, TLink r v))) \/
  exists r v, r ∈ rs /\ (u, TLink r v) ∈ gs /\ (t = (x, TLink r v) \/ exists c, (v, TType c) ∈ gs /\ t = (v, TType c)).
Proof.
  induction rs as [|r rs IH]; intros g t Hnd; simpl.
  - split; [intros ?; left; split; [done|]; intros r v Hr; by apply elem_of_nil in Hr|]. intros [[? _]|(r & v & Hr & _)]; [done|].
    by apply elem_of_nil in Hr.
  - apply stdpp.list.NoDup_cons in Hnd as [Hn Hnd]. rewrite IH by done. rewrite links_copy, clear_rel_spec by done. split.
    + intros [[[[H1 H2]|(v & Hv & Hx)] H3]|(r' & v & Hr & Hv & Hx)].
      * left. split; [done|]. intros r' v Hr. apply elem_of_cons in Hr as [->|Hr]; [apply H2|by apply H3].
      * right. exists r, v. split; [left|]. split; [by apply elem_targets|done].
      * right. exists r', v. split; [by right|done].
    + intros [[H1 H2]|(r' & v & Hr & Hv & Hx)].
      * left. split; [|intros r' v Hr; apply H2; by right]. left. split; [done|]. intros v. apply H2. left.
      * apply elem_of_cons in Hr as [->|Hr].
        -- left. split; [right; exists v; split; [by apply elem_targets|done]|]. intros r' v' Hr' ->.
           destruct Hx as [[= -> ->]|(c & _ & ?)]; done.
        -- right. by exists r', v.
Qed.

(** create_from_cuds_object: the copy has the triples of the original. *)
Section Create.
  Context (mk : cls -> list (attr * lit) -> res (list (attr * lit))).
  (** the constructor accepts the object's attributes *)
  Definition copyable (g : graph) (n : uid) : Prop :=
    exists c, (forall c', (n, TType c') ∈ g <-> c' = c) /\ single_values g n /\
      forall kw, (forall a l, (a, l) ∈ kw <-> (n, TAttr a l) ∈ g) ->
        exists attrs, mk c kw = Ok attrs /\ forall a l, (a, l) ∈ attrs <-> (n, TAttr a l) ∈ g.

  Lemma create_from_spec w ks kt n : ks <> kt -> copyable (gr (w ks)) n -> (n ∉ reg (w kt) -> n <> 0%N) ->
    exists w', create_from mk w (Obj ks n) kt = (w', Ok (Obj kt n)) /\ w' ks = w ks /\
      reg (w' kt) = reg (w kt) ∪ {[n]} /\
      forall t, t ∈ gr (w' kt) <->
        (t ∈ gr (w kt) /\ (n ∈ reg (w kt) -> fst t <> n) /\ (forall r v v', (n, TLink r v') ∈ gr (w ks) -> t <> (n, TLink r v))) \/
        (fst t = n /\ t ∈ gr (w ks)) \/
        (exists r v c, (n, TLink r v) ∈ gr (w ks) /\ (v, TType c) ∈ gr (w ks) /\ t = (v, TType c)).
  Proof.
    intros Hne (c & Hc & Hsv & Hmk) H0. unfold create_from. cbn [o_sid o_uid]. rewrite decide_False by done.
    assert (graph_of w (Obj ks n) = gr (w ks)) as Hgo by done. rewrite Hgo.
    rewrite (classes_single (gr (w ks)) n c Hc).
    destruct (Hmk (attr_dict (gr (w ks)) n)) as (attrs & Hm & Hat); [intros a l; by apply attr_dict_spec|].
    assert (exists w1, create_recycle mk w c (attr_dict (gr (w ks)) n) kt n = (w1, Ok (Obj kt n)) /\ w1 ks = w ks /\
      reg (w1 kt) = reg (w kt) ∪ {[n]} /\
      forall t, t ∈ gr (w1 kt) <-> (t ∈ gr (w kt) /\ (n ∈ reg (w kt) -> fst t <> n)) \/ t = (n, TType c) \/ exists a l, (n, TAttr a l) ∈ gr (w ks) /\ t = (n, TAttr a l))
      as (w1 & -> & Hs1 & Hr1 & Hg1).
    { unfold create_recycle. rewrite Hm. case_decide as Hd.
      - eexists. split; [reflexivity|]. unfold upd. rewrite decide_False by done. rewrite decide_True by done. split; [done|]. simpl.
        split; [set_solver|]. intros t. rewrite elem_of_union, elem_of_filter, no_links_spec, own_spec. setoid_rewrite Hat. split.
        + intros [(H1 & H2 & _)|H1]; [left|by right]. split; [done|]. done.
        + intros [[H1 H2]|H1]; [left|by right]. split; [by apply H2|]. split; [done|]. intros r v ->. by apply (H2 Hd).
      - destruct (create_spec (w kt) n c attrs (H0 Hd)) as (s' & -> & F1 & F2). eexists. split; [reflexivity|].
        unfold upd. rewrite decide_False by done. rewrite decide_True by done. split; [done|]. split; [done|].
        intros t. rewrite F2. setoid_rewrite Hat. split; [intros [?|?]; [left|by right]|intros [[? _]|?]; [by left|by right]]. split; done. }
    assert (graph_of w1 (Obj ks n) = gr (w ks)) as Hgo1 by (unfold graph_of; simpl; by rewrite Hs1). rewrite Hgo1. cbn [o_uid o_sid].
    set (gs := gr (w ks)) in *.
    set (body := fun g r => foldl (fun g v => set_neighbor g n r v (classes gs v)) (clear_rel g n r) (targets gs n r)).
    assert (forall rs w, let w' := foldl (fun w r => foldl (fun w v => set_graph w (Obj kt n) (set_neighbor (graph_of w (Obj kt n)) n r v (classes gs v)))
                 (set_graph w (Obj kt n) (clear_rel (graph_of w (Obj kt n)) n r)) (targets gs n r)) w rs in
             gr (w' kt) = foldl body (gr (w kt)) rs /\ reg (w' kt) = reg (w kt) /\ w' ks = w ks) as Hloop.
    { induction rs as [|r rs IH]; intros w0; simpl; [done|].
      match goal with |- context [foldl _ (foldl ?f ?w2 ?l) rs] => set (w3 := foldl f w2 l) end.
      destruct (IH w3) as (F1 & F2 & F3). simpl in F1, F2, F3. rewrite F1, F2, F3.
      pose proof (foldl_graph (fun g v => set_neighbor g n r v (classes gs v)) (Obj kt n) (targets gs n r)
        (set_graph w0 (Obj kt n) (clear_rel (graph_of w0 (Obj kt n)) n r))) as [G1 G2]. simpl in G1, G2. fold w3 in G1, G2.
      rewrite graph_of_set in G1. rewrite (reg_set w0 (Obj kt n)) in G2. split; [by f_equal|]. split; [done|].
      assert (same_but kt w0 w3) as Hsb.
      { unfold w3. eapply same_trans; [|apply foldl_same; intros w' v _; by apply same_set]. by apply same_set. }
      by apply Hsb. }
    destruct (Hloop (rels_of gs n) w1) as (F1 & F2 & F3). simpl in F1, F2, F3.
    eexists. split; [reflexivity|]. split; [by rewrite F3|]. split; [by rewrite F2|]. intros t. rewrite F1. unfold body.
    rewrite (rels_copy gs n n (rels_of gs n)) by (unfold rels_of; apply NoDup_remove_dups). rewrite Hg1. setoid_rewrite elem_rels_of. split.
    - intros [[[[H1 H2]|[->|(a & l & H1 & ->)]] H3]|(r & v & Hr & Hv & [->|(c' & Hc' & ->)])].
      + left. split; [done|]. split; [done|]. intros r v v' Hv'. apply H3. by exists v'.
      + right. left. split; [done|]. by apply Hc.
      + right. left. done.
      + right. left. done.
      + right. right. by exists r, v, c'.
    - intros [(H1 & H2 & H3)|[[H1 H2]|(r & v & c' & Hv & Hc' & ->)]].
      + left. split; [by left|]. intros r v [v' Hv']. by apply (H3 r v v').
      + destruct t as [x [r v|c'|a l]]; simpl in H1; subst x.
        * right. exists r, v. split; [by exists v|]. split; [done|by left].
        * left. split; [|done]. right. left. f_equal. f_equal. by apply Hc.
        * left. split; [|done]. right. right. by exists a, l.
      + right. exists r, v. split; [by exists v|]. split; [done|]. right. by exists c'.
  Qed.
End Create.

Section Fix.
  Context (O : onto) (Hinv : involutive O).

  Lemma fix_new_parents_spec ks kt n l : ks <> kt -> forall w m,
    (forall v r p, ((v, r), p) ∈ l -> active O r = false /\ (p = None \/ p = Some (Obj kt v))) ->
    exists w' m', foldl (fix_new_parent O (Obj kt n)) (w, m) l = (w', m') /\ w' ks = w ks /\ reg (w' kt) = reg (w kt) /\
      (forall t, t ∈ gr (w' kt) <-> t ∈ gr (w kt) \/ exists v r, ((v, r), Some (Obj kt v)) ∈ l /\ t = (v, TLink (o_inv O r) n)) /\
      (forall v o r, (v, (o, r)) ∈ m' <-> (v, (o, r)) ∈ m \/ (o = Obj kt n /\ ((v, r), None) ∈ l)).
  Proof.
    intros Hne. induction l as [|[[v r] p] l IH]; intros w m Hl.
    - exists w, m. split; [done|]. split; [done|]. split; [done|]. split.
      + intros t. split; [by left|]. intros [?|(v & r & Hv & _)]; [done|by apply elem_of_nil in Hv].
      + intros v o r. split; [by left|]. intros [?|[_ Hv]]; [done|by apply elem_of_nil in Hv].
    - destruct (Hl v r p ltac:(left)) as [Ha Hp]. cbn [foldl].
      assert (fix_new_parent O (Obj kt n) (w, m) ((v, r), p) = match p with
        | None => (w, m ++ [(v, (Obj kt n, r))])
        | Some p => (set_graph w p (set_neighbor (graph_of w p) (o_uid p) (o_inv O r) n (classes (graph_of w (Obj kt n)) n)), m) end) as ->
        by (unfold fix_new_parent; by rewrite Ha).
      assert (forall v r p, ((v, r), p) ∈ l -> active O r = false /\ (p = None \/ p = Some (Obj kt v))) as Hl' by (intros ??? Hin; apply Hl; by right).
      destruct Hp as [->| ->].
      + destruct (IH w (m ++ [(v, (Obj kt n, r))]) Hl') as (w' & m' & Heq & H1 & H2 & H3 & H4). exists w', m'.
        split; [exact Heq|]. split; [done|]. split; [done|]. split.
        * intros t. rewrite H3. apply or_iff_compat_l. split; intros (v' & r' & Hin & ?); exists v', r'; (split; [|done]); [by right|].
          apply elem_of_cons in Hin as [?|?]; [done|done].
        * intros v' o' r'. rewrite H4, elem_of_app, elem_of_list_singleton, elem_of_cons. split.
          -- intros [[?|[= -> -> ->]]|[-> ?]]; [by left|right; split; [done|by left]|right; split; [done|by right]].
          -- intros [?|[-> [[= -> ->]|?]]]; [by left; left|left; by right|by right].
      + cbn [o_uid].
        match goal with |- context [foldl _ (set_graph w ?p ?g, m) l] => destruct (IH (set_graph w p g) m Hl') as (w' & m' & Heq & H1 & H2 & H3 & H4) end.
        exists w', m'. split; [exact Heq|]. split; [rewrite H1; by apply (same_set kt)|]. split; [rewrite H2; apply (reg_set w (Obj kt v))|]. split.
        * intros t. rewrite H3. pose proof (graph_of_set w (Obj kt v)) as Hg. unfold graph_of in Hg at 1. cbn [o_sid] in Hg. rewrite Hg.
          rewrite set_neighbor_spec. unfold graph_of. cbn [o_sid o_uid]. split.
          -- intros [[?|[?|(c & Hc & ->)]]|(v' & r' & Hin & ?)].
             ++ by left.
             ++ right. exists v, r. split; [left|done].
             ++ left. by apply elem_classes.
             ++ right. exists v', r'. split; [by right|done].
          -- intros [?|(v' & r' & Hin & ->)]; [by left; left|]. apply elem_of_cons in Hin as [[= -> ->]|Hin]; [left; right; by left|].
             right. by exists v', r'.
        * intros v' o' r'. rewrite H4, elem_of_cons. split; [intros [?|[-> ?]]; [by left|right; split; [done|by right]]|].
          intros [?|[-> [?|?]]]; [by left|done|by right].
  Qed.

  Lemma restore_one w kt n r v cs (l : list rel) g0 : l <> [] -> graph_of w (Obj kt n) = g0 ->
    let w' := foldl (fun w it => set_graph w (Obj kt n) (set_neighbor (graph_of w (Obj kt n)) n r (fst it) (cs (fst it)))) w (zip [v] l) in
    w' = set_graph w (Obj kt n) (set_neighbor g0 n r v (cs v)).
  Proof. intros Hl Hg. destruct l as [|r0 l]; [done|]. simpl. by rewrite Hg. Qed.

  Lemma fix_old_neighbors_spec ks kt n og l : ks <> kt -> forall w,
    (forall v r p, ((v, r), p) ∈ l -> p = Some (Obj kt v) /\ v <> n) ->
    (forall v r p, ((v, r), p) ∈ l -> active O r = false ->
       targets og n r = [v] /\ (v, TLink (o_inv O r) n) ∈ gr (w kt) /\ forall c, (v, TType c) ∈ og -> (v, TType c) ∈ gr (w kt)) ->
    exists w', fix_old_neighbors O (Obj kt n) og w l = (w', None) /\ w' ks = w ks /\ reg (w' kt) = reg (w kt) /\
      (forall t, t ∈ gr (w' kt) <->
         (t ∈ gr (w kt) /\ ~ exists v r p, ((v, r), p) ∈ l /\ active O r = true /\ t = (v, TLink (o_inv O r) n)) \/
         exists v r p, ((v, r), p) ∈ l /\ active O r = false /\ t = (n, TLink r v)).
  Proof.
    intros Hne. induction l as [|[[v r] p] l IH]; intros w Hl Hr.
    - exists w. split; [done|]. split; [done|]. split; [done|]. intros t. split.
      + intros Ht. left. split; [done|]. intros (v & r & p & Hin & _). by apply elem_of_nil in Hin.
      + intros [[? _]|(v & r & p & Hin & _)]; [done|by apply elem_of_nil in Hin].
    - destruct (Hl v r p ltac:(left)) as [-> Hvn].
      assert (forall v r p, ((v, r), p) ∈ l -> p = Some (Obj kt v) /\ v <> n) as Hl' by (intros ??? Hin; eapply Hl; by right).
      cbn [fix_old_neighbors fix_old_neighbor]. destruct (active O r) eqn:Ea; cbn [o_uid].
      + match goal with |- context [fix_old_neighbors O (Obj kt n) og ?x l] => set (w1 := x) end.
        assert (w1 ks = w ks /\ reg (w1 kt) = reg (w kt) /\ forall t, t ∈ gr (w1 kt) <-> t ∈ gr (w kt) /\ t <> (v, TLink (o_inv O r) n)) as (W1 & W2 & W3).
        { unfold w1. case_decide as Hd.
          - split; [by apply (same_set kt)|]. split; [apply (reg_set w (Obj kt v))|]. intros t.
            pose proof (graph_of_set w (Obj kt v)) as Hg. unfold graph_of in Hg at 1. cbn [o_sid] in Hg. rewrite Hg. unfold remove_direct.
            rewrite elem_of_difference, elem_of_singleton. done.
          - split; [done|]. split; [done|]. intros t. split; [|tauto]. intros Ht. split; [done|]. intros ->. apply Hd.
            apply elem_rels_of. by exists n. }
        clearbody w1.
        destruct (IH w1 Hl') as (w' & -> & H1 & H2 & H3).
        { intros v' r' p' Hin Ha'. destruct (Hr v' r' p' ltac:(by right) Ha') as (F1 & F2 & F3). split; [done|].
          split.
          - apply W3. split; [done|]. intros Heq. assert (o_inv O r' = o_inv O r) as Hii by congruence.
            assert (r' = r) by (rewrite <- (Hinv r'), Hii; apply Hinv). congruence.
          - intros c Hc. apply W3. split; [by apply F3|done]. }
        exists w'. split; [done|]. split; [congruence|]. split; [congruence|]. intros t. rewrite H3, W3. split.
        * intros [[[G1 G2] G3]|(v' & r' & p' & Hin & ? & ?)].
          -- left. split; [done|]. intros (v' & r' & p' & Hin & Ha' & ->). apply elem_of_cons in Hin as [[= -> -> ->]|Hin]; [done|].
             apply G3. by exists v', r', p'.
          -- right. exists v', r', p'. split; [by right|done].
        * intros [[G1 G2]|(v' & r' & p' & Hin & ? & ?)].
          -- left. split; [split; [done|]|].
             ++ intros ->. apply G2. eexists v, r, _. split; [left|done].
             ++ intros (v' & r' & p' & Hin & Ha' & ->). apply G2. exists v', r', p'. split; [by right|done].
          -- apply elem_of_cons in Hin as [[= -> -> ->]|Hin]; [congruence|]. right. by exists v', r', p'.
      + destruct (Hr v r (Some (Obj kt v)) ltac:(left) Ea) as (F1 & F2 & F3). rewrite F1.
        rewrite (restore_one w kt n r v (classes og) _ (graph_of w (Obj kt n))); [|intros Hnil|done].
        2:{ assert (o_inv O r ∈ rels_of (graph_of w (Obj kt v)) v) as Hx by (apply elem_rels_of; by exists n).
            rewrite Hnil in Hx. by apply elem_of_nil in Hx. }
        match goal with |- context [fix_old_neighbors O (Obj kt n) og ?x l] => set (w1 := x) end.
        assert (w1 ks = w ks /\ reg (w1 kt) = reg (w kt) /\ forall t, t ∈ gr (w1 kt) <-> t ∈ gr (w kt) \/ t = (n, TLink r v)) as (W1 & W2 & W3).
        { unfold w1. split; [by apply (same_set kt)|]. split; [apply (reg_set w (Obj kt n))|]. intros t.
          pose proof (graph_of_set w (Obj kt n)) as Hg. unfold graph_of in Hg at 1. cbn [o_sid] in Hg. rewrite Hg. rewrite set_neighbor_spec.
          unfold graph_of. cbn [o_sid]. split; [|tauto]. intros [?|[?|(c & Hc & ->)]]; [by left|by right|]. left. apply F3. by apply elem_classes. }
        clearbody w1.
        destruct (IH w1 Hl') as (w' & -> & H1 & H2 & H3).
        { intros v' r' p' Hin Ha'. destruct (Hr v' r' p' ltac:(by right) Ha') as (G1 & G2 & G3). split; [done|].
          split; [apply W3; by left|]. intros c Hc. apply W3. left. by apply G3. }
        exists w'. split; [done|]. split; [congruence|]. split; [congruence|]. intros t. rewrite H3, W3. split.
        * intros [[[G1|G1] G3]|(v' & r' & p' & Hin & ? & ?)].
          -- left. split; [done|]. intros (v' & r' & p' & Hin & Ha' & ->). apply elem_of_cons in Hin as [[= -> -> ->]|Hin]; [congruence|].
             apply G3. by exists v', r', p'.
          -- right. eexists v, r, _. split; [left|done].
          -- right. exists v', r', p'. split; [by right|done].
        * intros [[G1 G2]|(v' & r' & p' & Hin & ? & ->)].
          -- left. split; [by left|]. intros (v' & r' & p' & Hin & Ha' & ->). apply G2. exists v', r', p'. split; [by right|done].
          -- apply elem_of_cons in Hin as [[= -> -> ->]|Hin].
             ++ left. split; [by right|]. intros (v' & r' & p' & Hin' & Ha' & Heq). apply Hl' in Hin' as [_ Hv']. congruence.
             ++ right. by exists v', r', p'.
  Qed.
End Fix.
