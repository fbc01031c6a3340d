(** Recursive deletion (C53), detaching (C54), searches by class, attribute and
    relationship (C55). *)
From stdpp Require Import base list gmap.
From Verif Require Import Prelude Cuds CudsProofs Traverse PropCuds PropTraverse Utils.
Local Open Scope N_scope.

(** ** C53 *)

Lemma delete_all_spec O l s :
  involutive O -> sess_inv O s -> covered O s -> NoDup l -> (forall u, u ∈ l -> u ∈ reg s) ->
  exists s', delete_all O s l = (s', None) /\ root s' = root s /\ sess_inv O s' /\ covered O s' /\
    (forall u, u ∈ reg s' <-> u ∈ reg s /\ u ∉ l) /\
    (forall t, t ∈ gr s' <-> t ∈ gr s /\ fst t ∉ l /\ forall b r v, t = (b, TLink r v) -> v ∉ l).
Proof.
  intros Hivl. revert s. induction l as [|u l IH]; intros s Hinv Hcov Hnd Hl; simpl.
  - exists s. split; [done|]. split; [done|]. split; [done|]. split; [done|]. split.
    + intros u. split; [intros H; split; [done|apply not_elem_of_nil]|tauto].
    + intros t. split; [|tauto]. intros Ht. split; [done|]. split; [apply not_elem_of_nil|].
      intros; apply not_elem_of_nil.
  - apply stdpp.list.NoDup_cons in Hnd as [Hu Hnd].
    assert (Hur : u ∈ reg s) by (apply Hl; left).
    destruct (delete_spec O s u Hivl Hinv Hur Hcov) as (s1 & Hd & Hr1 & Hro1 & Ht1).
    pose proof (delete_inv O s u Hivl Hinv Hur Hcov) as Hinv1. rewrite Hd in *. simpl in Hinv1.
    assert (Hcov1 : covered O s1).
    { intros a r b Hab. apply Ht1 in Hab as [Hab _]. by eapply Hcov. }
    destruct (IH s1 Hinv1 Hcov1 Hnd) as (s' & He & Hro & Hinv' & Hcov' & Hr & Ht).
    { intros v Hv. rewrite Hr1. apply elem_of_difference. split; [apply Hl; by right|].
      rewrite elem_of_singleton. intros ->. done. }
    exists s'. split; [done|]. split; [by rewrite Hro|]. split; [done|]. split; [done|]. split.
    + intros v. rewrite Hr, Hr1, not_elem_of_cons, elem_of_difference, elem_of_singleton. tauto.
    + intros t. rewrite Ht, Ht1, not_elem_of_cons. split.
      * intros ((H1 & H2 & H3) & H4 & H5). split; [done|]. split; [done|]. intros b r v ->.
        rewrite not_elem_of_cons. split; [|by eapply H5]. intros ->. by apply (H3 b r).
      * intros (H1 & (H2 & H3) & H4). split; [split; [done|]; split; [done|]|split; [done|]].
        -- intros b r ->. specialize (H4 b r u eq_refl). rewrite not_elem_of_cons in H4. tauto.
        -- intros b r v ->. specialize (H4 b r v eq_refl). rewrite not_elem_of_cons in H4. tauto.
Qed.

(** delete_cuds_object_recursively(u, rel): deletes exactly the objects reachable
    from u, whatever cycles there are; all other objects keep all their triples but
    the links to deleted objects, and links stay bidirectional. *)
Theorem C53_delete_recursively O s u rf fuel :
  involutive O -> bidirectional O s -> closed s ->
  (forall a r b, connected s a r b -> o_sub O r (o_relationship O) = true) ->
  u ∈ reg s -> (size (reg s) < fuel)%nat ->
  exists s', delete_recursively O fuel s u rf None = Some (s', None) /\
    (forall v, v ∈ reg s' <-> v ∈ reg s /\ ~ reachable_via O s rf u v) /\
    (forall v p, (v, p) ∈ gr s' <->
       (v, p) ∈ gr s /\ ~ reachable_via O s rf u v /\
       forall r w, p = TLink r w -> ~ reachable_via O s rf u w) /\
    bidirectional O s' /\ closed s' /\ root s' = root s.
Proof.
  intros Hivl Hb Hc Hcov Hu Hf.
  destruct (C17_find_all_exact O s rf (fun _ => true) u fuel Hb Hc Hu Hf) as (vis & l & He & Hnd & Hl).
  unfold delete_recursively. rewrite He.
  assert (Hin : forall v, v ∈ l -> v ∈ reg s).
  { intros v Hv. apply Hl in Hv as [Hv _].
    induction Hv as [|a b _ IH (r & Hab & _)]; [done|]. by eapply linked_in_reg. }
  destruct (delete_all_spec O l s Hivl (conj Hb Hc) Hcov Hnd Hin) as (s' & Hd & Hro & [Hb' Hc'] & _ & Hr & Ht).
  exists s'. rewrite Hd. split; [done|]. split; [|split; [|done]].
  - intros v. rewrite Hr, Hl. tauto.
  - intros v p. rewrite Ht. simpl. rewrite Hl. split.
    + intros (H1 & H2 & H3). split; [done|]. split; [tauto|]. intros r w -> Hw.
      apply (H3 v r w eq_refl), Hl. done.
    + intros (H1 & H2 & H3). split; [done|]. split; [tauto|]. intros b r w [= -> ->] Hw.
      apply Hl in Hw as [Hw _]. by apply (H3 r w).
Qed.

(** With max_depth = d only objects at most d steps away are deleted (not
    necessarily all of them: C17_refuted_max_depth), and nothing else is lost. *)
Theorem C53_max_depth O s u rf d fuel :
  involutive O -> bidirectional O s -> closed s ->
  (forall a r b, connected s a r b -> o_sub O r (o_relationship O) = true) ->
  u ∈ reg s -> (size (reg s) < fuel)%nat ->
  exists s', delete_recursively O fuel s u rf (Some d) = Some (s', None) /\
    u ∉ reg s' /\
    (forall v, v ∈ reg s -> v ∉ reg s' -> exists n, (n <= d)%nat /\ reach_n (iter_nbrs O s rf) u n v) /\
    (forall v p, (v, p) ∈ gr s' <->
       (v, p) ∈ gr s /\ v ∈ reg s' /\ forall r w, p = TLink r w -> w ∈ reg s') /\
    bidirectional O s' /\ closed s'.
Proof.
  intros Hivl Hb Hc Hcov Hu Hf.
  destruct (find_spec (iter_nbrs O s rf) (reg s) (fun _ => true) true (Some d) (fun _ => 0%nat) false)
    with (fuel := fuel) (root := u) (v := ∅ : gset uid) (depth := 0%nat)
    as (v' & r & He & _ & Hfd).
  { by left. } { by apply iter_nbrs_closed. } { done. } { apply not_elem_of_empty. }
  { assert (size (reg s ∖ ∅) = size (reg s)) as ->; [|done]. f_equal. set_solver. }
  { done. }
  destruct Hfd as [_ Hroot Hre Hres]. destruct r as [l|[x|]]; [|by destruct Hres|by destruct Hres].
  destruct Hres as (_ & Hnd & Hl & _).
  assert (Hn : forall v, v ∈ l -> exists n, (n <= d)%nat /\ reach_n (iter_nbrs O s rf) u n v).
  { intros v Hv. apply Hl in Hv as (Hv & Hnv & _). destruct (Hre v Hv Hnv) as (n & H1 & H2).
    exists n. split; [|done]. specialize (H2 d eq_refl). lia. }
  assert (Hin : forall v, v ∈ l -> v ∈ reg s).
  { intros v Hv. destruct (Hn v Hv) as (n & _ & Hrn).
    assert (Hrv : reach (iter_nbrs O s rf) u v) by (apply reach_reach_n; eauto).
    clear -Hrv Hu Hb Hc. induction Hrv as [|y z _ IH Hz]; [done|].
    by eapply iter_nbrs_closed. }
  destruct (delete_all_spec O l s Hivl (conj Hb Hc) Hcov Hnd Hin) as (s' & Hd & _ & [Hb' Hc'] & _ & Hr & Ht).
  exists s'. unfold delete_recursively. rewrite He, Hd. split; [done|]. split; [|split; [|split; [|done]]].
  - rewrite Hr. intros [_ Hnu]. apply Hnu, Hl. split; [done|]. split; [apply not_elem_of_empty|done].
  - intros v Hv Hv'. apply Hn. destruct (decide (v ∈ l)) as [|Hnl]; [done|].
    exfalso. apply Hv', Hr. done.
  - intros v p. rewrite Ht. simpl. split.
    + intros (H1 & H2 & H3). split; [done|]. split; [apply Hr; split; [by eapply Hc|done]|].
      intros r w ->. apply Hr. split; [|by eapply H3]. by eapply (linked_in_reg O s v r w (conj Hb Hc)).
    + intros (H1 & H2 & H3). apply Hr in H2 as [_ H2]. split; [done|]. split; [done|].
      intros b r w [= -> ->]. specialize (H3 r w eq_refl). apply Hr in H3. tauto.
Qed.

(** A depth that no path without repetition exceeds is no restriction, and any
    depth but 0 includes the neighbours. *)
Theorem C53_max_depth_enough O s u rf d fuel :
  bidirectional O s -> closed s -> u ∈ reg s -> (size (reg s) < fuel)%nat -> (size (reg s) <= S d)%nat ->
  delete_recursively O fuel s u rf (Some d) = delete_recursively O fuel s u rf None.
Proof.
  intros Hb Hc Hu Hf Hd. unfold delete_recursively.
  assert (Hsz : size (reg s ∖ ∅) = size (reg s)) by (f_equal; set_solver).
  rewrite (find_deep (iter_nbrs O s rf) (reg s) (fun _ => true) true d); [done| |done|apply not_elem_of_empty|by rewrite Hsz|by rewrite Hsz].
  by apply iter_nbrs_closed.
Qed.

Theorem C53_max_depth_neighbours O s u rf d fuel s' :
  involutive O -> bidirectional O s -> closed s ->
  (forall a r b, connected s a r b -> o_sub O r (o_relationship O) = true) ->
  u ∈ reg s -> (size (reg s) < fuel)%nat -> (0 < d)%nat ->
  delete_recursively O fuel s u rf (Some d) = Some (s', None) ->
  forall v, v ∈ iter_nbrs O s rf u -> v ∉ reg s'.
Proof.
  intros Hivl Hb Hc Hcov Hu Hf Hd0 He v Hv. unfold delete_recursively in He.
  destruct (find_cuds_object (iter_nbrs O s rf) fuel (fun _ => true) true (Some d) 0 u ∅) as [[vis [l|x]]|] eqn:Ef; try done.
  pose proof (C17_max_depth_neighbours (iter_nbrs O s rf) (reg s) (fun _ => true) u d fuel vis l
    (iter_nbrs_closed O s rf (conj Hb Hc)) Hu Hf Hd0 Ef v (or_intror Hv) eq_refl) as Hin.
  destruct (find_spec (iter_nbrs O s rf) (reg s) (fun _ => true) true (Some d) (fun _ => 0%nat) false)
    with (fuel := fuel) (root := u) (v := ∅ : gset uid) (depth := 0%nat)
    as (v' & r & He' & _ & Hfd).
  { by left. } { by apply iter_nbrs_closed. } { done. } { apply not_elem_of_empty. }
  { assert (size (reg s ∖ ∅) = size (reg s)) as ->; [|done]. f_equal. set_solver. }
  { done. }
  rewrite Ef in He'. injection He' as <- <-. destruct Hfd as [_ Hroot Hre (_ & Hnd & Hl & _)].
  assert (HinR : forall w, w ∈ l -> w ∈ reg s).
  { intros w Hw. apply Hl in Hw as (Hw & Hnw & _). destruct (Hre w Hw Hnw) as (n & H1 & H2).
    assert (Hrv : reach (iter_nbrs O s rf) u w) by (apply reach_reach_n; eauto).
    clear -Hrv Hu Hb Hc. induction Hrv as [|y z _ IH Hz]; [done|]. by eapply iter_nbrs_closed. }
  destruct (delete_all_spec O l s Hivl (conj Hb Hc) Hcov Hnd HinR) as (s2 & Hd & _ & _ & _ & Hr & _).
  injection He as He. rewrite Hd in He. injection He as <-. rewrite Hr. tauto.
Qed.

(** 11 contains itself and 12; 13 is only linked passively: it stays. *)
Example C53_example :
  exists s', delete_recursively exO 10 exS 11 (Some 1) None = Some (s', None) /\
    bool_decide (reg s' = {[13]} /\ root s' = Some 11) = true.
Proof. apply (opt_ok _ (fun s' => bool_decide (reg s' = {[13]} /\ root s' = Some 11))). by vm_compute. Qed.

(** ** C54 *)

Lemma remove_each_spec O s a l :
  involutive O -> sess_inv O s -> NoDup l ->
  (forall b, b ∈ l -> exists r, connected s a r b /\ o_sub O r (o_relationship O) = true) ->
  exists s', remove_each O s a l = (s', None) /\ reg s' = reg s /\ root s' = root s /\ sess_inv O s' /\
    forall t, t ∈ gr s' <-> t ∈ gr s /\
      forall b r, b ∈ l -> connected s a r b -> o_sub O r (o_relationship O) = true ->
        t <> (a, TLink r b) /\ t <> (b, TLink (o_inv O r) a).
Proof.
  intros Hivl. revert s. induction l as [|b l IH]; intros s Hinv Hnd Hl; simpl.
  - exists s. split; [done|]. split; [done|]. split; [done|]. split; [done|].
    intros t. split; [|tauto]. intros Ht. split; [done|]. intros b r Hb. by apply elem_of_nil in Hb.
  - apply stdpp.list.NoDup_cons in Hnd as [Hbl Hnd].
    pose proof (remove_spec O s a [b] (Some (o_relationship O)) None Hinv) as Hrm.
    pose proof (remove_inv O s a [b] (Some (o_relationship O)) None Hivl Hinv) as Hinv1.
    assert (Hm : forall b' r, matching O s a [b] (Some (o_relationship O)) None b' r <->
                  b' = b /\ connected s a r b /\ o_sub O r (o_relationship O) = true).
    { intros b' r. unfold matching. split.
      - intros (H1 & H2 & H3 & _). assert (b' = b) as ->.
        { specialize (H3 ltac:(done)). by apply elem_of_list_singleton in H3. }
        split; [done|]. split; [done|]. by apply H2.
      - intros (-> & H1 & H2). split; [done|]. split; [by intros sup [= <-]|].
        split; [|done]. intros _. left. }
    destruct (remove O s a [b] (Some (o_relationship O)) None) as [s1 e]. simpl in Hinv1.
    destruct Hrm as [(_ & _ & ? & _)|[(_ & _ & _ & Hno)|(-> & _ & Hr1 & Hro1 & Ht1)]]; [done| |].
    { exfalso. destruct (Hl b) as (r & H1 & H2); [left|]. apply (Hno b r), Hm. done. }
    assert (Hkeep : forall b' r, b' <> b -> connected s1 a r b' <-> connected s a r b').
    { intros b' r Hne. unfold connected. rewrite Ht1. split; [tauto|]. intros H. split; [done|].
      intros b2 r2 Hm2. apply Hm in Hm2 as (-> & _ & _). split; [congruence|].
      intros Heq. injection Heq as -> _ ->. done. }
    destruct (IH s1 Hinv1 Hnd) as (s' & He & Hr & Hro & Hinv' & Ht).
    { intros b' Hb'. assert (Hne : b' <> b) by (intros ->; done).
      destruct (Hl b') as (r & H1 & H2); [by right|]. exists r. split; [|done]. by apply Hkeep. }
    exists s'. split; [done|]. split; [by rewrite Hr|]. split; [by rewrite Hro|]. split; [done|].
    intros t. rewrite Ht, Ht1. split.
    + intros ((H1 & H2) & H3). split; [done|]. intros b' r Hb' Hc Hs.
      destruct (decide (b' = b)) as [->|Hne]; [apply (H2 b r), Hm; done|].
      apply (H3 b' r); [|by apply Hkeep|done]. apply elem_of_cons in Hb' as [?|?]; done.
    + intros (H1 & H2). split; [split; [done|]|].
      * intros b' r Hm'. apply Hm in Hm' as (-> & H3 & H4). apply (H2 b r); [left|done|done].
      * intros b' r Hb' Hc Hs. assert (Hne : b' <> b) by (intros ->; done).
        apply (H2 b' r); [by right|by apply Hkeep|done].
Qed.

(** remove_cuds_object(a) never fails; a stays an object of the session with its
    classes and attributes, and exactly its links (in both directions) go. *)
Theorem C54_remove_cuds_object O s a s' e :
  involutive O -> bidirectional O s -> closed s ->
  (forall x r y, connected s x r y -> o_sub O r (o_relationship O) = true) ->
  remove_cuds_object O s a = (s', e) ->
  e = None /\ reg s' = reg s /\ root s' = root s /\ bidirectional O s' /\
  forall t, t ∈ gr s' <-> t ∈ gr s /\ forall b r, t <> (a, TLink r b) /\ t <> (b, TLink r a).
Proof.
  intros Hivl Hb Hc Hcov He. pose proof (conj Hb Hc) as Hinv. unfold remove_cuds_object in He.
  set (l := iter_nbrs O s (Some (o_relationship O)) a) in *.
  assert (Hl : forall b, b ∈ l <-> exists r, connected s a r b /\ o_sub O r (o_relationship O) = true).
  { intros b. unfold l. rewrite elem_iter_nbrs by done. split; intros (r & H1 & H2); exists r; split; try done.
    - by apply H2. - by intros sup [= <-]. }
  assert (Hnd : NoDup l).
  { unfold l, iter_nbrs. destruct (get_all_spec O s a (Some (o_relationship O)) None Hinv) as (bs & -> & Hnd & _).
    assert (omap id (Some <$> bs) = bs) as ->; [|done].
    clear. induction bs as [|b bs IH]; csimpl; [done|]. by rewrite IH. }
  destruct (remove_each_spec O s a l Hivl Hinv Hnd) as (s1 & He1 & Hr & Hro & [Hb' _] & Ht).
  { intros b. apply Hl. }
  rewrite He in He1. simplify_eq. split; [done|]. split; [done|]. split; [done|]. split; [done|].
  intros t. rewrite Ht. split; intros [H1 H2]; (split; [done|]).
  - intros b r. split; intros ->.
    + destruct (H2 b r) as [H3 _]; [apply Hl|..]; eauto.
    + assert (Hba : connected s a (o_inv O r) b) by (by apply Hb in H1).
      destruct (H2 b (o_inv O r)) as [_ H3]; [apply Hl|..]; eauto. apply H3. by rewrite Hivl.
  - intros b r _ _ _. split; apply H2.
Qed.

(** Afterwards prune() deletes the object (unless it is the root). *)
Theorem C54_then_prune O s a s1 e r fuel :
  involutive O -> bidirectional O s -> closed s ->
  (forall x q y, connected s x q y -> o_sub O q (o_relationship O) = true) ->
  root s = Some r -> r ∈ reg s -> r <> a -> (size (reg s) < fuel)%nat ->
  remove_cuds_object O s a = (s1, e) ->
  exists s', prune O fuel s1 None = Some (s', None) /\ a ∉ reg s' /\
    (forall u, u ∈ reg s' <-> reachable_via O s1 None r u) /\
    (forall p, (a, p) ∉ gr s') /\ forall b q, (b, TLink q a) ∉ gr s'.
Proof.
  intros Hivl Hb Hc Hcov Hro Hr Hne Hf He.
  destruct (C54_remove_cuds_object O s a s1 e Hivl Hb Hc Hcov He) as (_ & Hreg & Hro1 & Hb1 & Ht).
  assert (Hc1 : closed s1).
  { intros u p Hup. rewrite Hreg. apply Ht in Hup as [Hup _]. by eapply Hc. }
  destruct (C16_prune_exact O s1 None r fuel Hb1 Hc1) as (s' & Hp & _ & Hr' & Ht'); [congruence|congruence|by rewrite Hreg|].
  assert (Hna : ~ reachable_via O s1 None r a).
  { intros Hv. inversion Hv as [Heq|b c Hv' (q & Hq & _) Heq]; [done|]. subst.
    apply Ht in Hq as [_ Hq]. by destruct (Hq b q). }
  exists s'. split; [done|]. split; [by rewrite Hr'|]. split; [done|]. split.
  - intros p Hp'. by apply Ht' in Hp' as [_ ?].
  - intros b q Hl. apply Ht' in Hl as [Hl _]. apply Ht in Hl as [_ Hl]. by destruct (Hl b q).
Qed.
Example C54_example :
  snd (remove_cuds_object exO exS 12) = None /\
  bool_decide (gr exS ∖ gr (fst (remove_cuds_object exO exS 12)) =
     {[ (11, TLink 1 12); (12, TLink 2 11); (12, TLink 5 13); (13, TLink 5 12) ]}) = true /\
  bool_decide (gr (fst (remove_cuds_object exO exS 12)) ⊆ gr exS) = true.
Proof. split; [|split]; vm_compute; reflexivity. Qed.

(** Without the proviso (relationships of OWL ontologies that are not below
    cuba.relationship) the object stays connected. *)
Theorem C54_owl_relationships_refuted :
  exists O s, involutive O /\ bidirectional O s /\ closed s /\ connected s 11 5 12 /\
    remove_cuds_object O s 11 = (s, None).
Proof.
  set (O := {| o_sub := fun a b => bool_decide (a = b \/ a = 1); o_inv := o_inv exO; o_csub := o_csub exO;
               o_relationship := 0; o_active := 1 |}).
  set (s := fst (add O (fst (create (fst (create empty_sess 11 3 [])) 12 3 [])) 11 5 [12])).
  assert (Hinv : sess_inv O s).
  { unfold s. apply add_inv; [exact exO_involutive| | |].
    - apply create_inv, create_inv. split; [|by intros ? ? ?%elem_of_empty].
      intros a r b. unfold connected. simpl. split; intros H; by apply elem_of_empty in H.
    - apply (bool_decide_unpack _). by vm_compute.
    - apply Forall_singleton. apply (bool_decide_unpack _). by vm_compute. }
  exists O, s. split; [exact exO_involutive|]. split; [apply Hinv|]. split; [apply Hinv|]. split.
  - unfold connected. apply (bool_decide_unpack _). by vm_compute.
  - assert (Hn : iter_nbrs O s (Some (o_relationship O)) 11 = []) by (vm_compute; reflexivity).
    unfold remove_cuds_object. by rewrite Hn.
Qed.

(** ** C55 *)

(** get_relationships_between(a, b): exactly the relationships from a to b. *)
Theorem C55_relationships_between s a b r : r ∈ relationships_between s a b <-> connected s a r b.
Proof.
  unfold relationships_between. rewrite elem_of_list_to_set, elem_of_list_filter, elem_rels_of.
  unfold linked, connected. rewrite bool_decide_eq_true. split; [tauto|eauto].
Qed.

Lemma has_relationship_spec O s r subs u :
  has_relationship O s r subs u = true <->
  exists q v, connected s u q v /\ (if subs then o_sub O q r = true else q = r).
Proof.
  unfold has_relationship, connected. destruct subs.
  - rewrite existsb_exists. split.
    + intros (q & Hq%elem_of_list_In & Hs). apply elem_rels_of in Hq as [v Hv]. eauto.
    + intros (q & v & Hv & Hs). exists q. split; [|done]. apply elem_of_list_In, elem_rels_of. eauto.
  - rewrite bool_decide_eq_true, elem_rels_of. split; [intros [v Hv]; eauto|intros (q & v & Hv & ->); eauto].
Qed.

(** find_relationships(r, root, rel, find_sub_rels): exactly the objects reachable
    from root that have r (or one of its subrelationships). *)
Theorem C55_find_relationships O s rf r subs root fuel :
  bidirectional O s -> closed s -> root ∈ reg s -> (size (reg s) < fuel)%nat ->
  exists l, find_all_below O fuel s rf (has_relationship O s r subs) root = Some l /\ NoDup l /\
    forall x, x ∈ l <-> reachable_via O s rf root x /\
      exists q v, connected s x q v /\ (if subs then o_sub O q r = true else q = r).
Proof.
  intros Hb Hc Hr Hf.
  destruct (C17_find_all_exact O s rf (has_relationship O s r subs) root fuel Hb Hc Hr Hf) as (vis & l & He & Hnd & Hl).
  exists l. unfold find_all_below. rewrite He. split; [done|]. split; [done|].
  intros x. by rewrite Hl, has_relationship_spec.
Qed.

(** find_cuds_objects_by_oclass(c, root, rel): exactly the reachable instances. *)
Theorem C55_find_by_oclass O s rf c root fuel :
  bidirectional O s -> closed s -> root ∈ reg s -> (size (reg s) < fuel)%nat ->
  exists l, find_all_below O fuel s rf (is_a O s c) root = Some l /\ NoDup l /\
    forall x, x ∈ l <-> reachable_via O s rf root x /\
      exists d, (x, TType d) ∈ gr s /\ o_csub O d c = true.
Proof.
  intros Hb Hc Hr Hf.
  destruct (C17_find_all_exact O s rf (is_a O s c) root fuel Hb Hc Hr Hf) as (vis & l & He & Hnd & Hl).
  exists l. unfold find_all_below. rewrite He. split; [done|]. split; [done|].
  intros x. rewrite Hl. unfold is_a. rewrite existsb_exists. split.
  - intros (H1 & d & Hd%elem_of_list_In & Hs). split; [done|]. exists d. split; [by apply elem_classes|done].
  - intros (H1 & d & Hd & Hs). split; [done|]. exists d. split; [|done]. by apply elem_of_list_In, elem_classes.
Qed.

(** find_cuds_objects_by_attribute(name, value, root, rel): the reachable objects
    whose class has an attribute of that name with that value (for objects with one
    class and at most one value per attribute). *)
Theorem C55_find_by_attribute O s rf named eqv root fuel :
  bidirectional O s -> closed s -> root ∈ reg s -> (size (reg s) < fuel)%nat ->
  (forall u c d, (u, TType c) ∈ gr s -> (u, TType d) ∈ gr s -> c = d) ->
  (forall u a l m, (u, TAttr a l) ∈ gr s -> (u, TAttr a m) ∈ gr s -> l = m) ->
  exists l, find_all_below O fuel s rf (attr_equals s named eqv) root = Some l /\ NoDup l /\
    forall x, x ∈ l <-> reachable_via O s rf root x /\
      exists c a v, (x, TType c) ∈ gr s /\ named c = Some a /\ (x, TAttr a v) ∈ gr s /\ eqv v = true.
Proof.
  intros Hb Hc Hr Hf Hone Hval.
  destruct (C17_find_all_exact O s rf (attr_equals s named eqv) root fuel Hb Hc Hr Hf) as (vis & l & He & Hnd & Hl).
  exists l. unfold find_all_below. rewrite He. split; [done|]. split; [done|].
  intros x. rewrite Hl. unfold attr_equals. split.
  - intros [H1 H2]. split; [done|].
    destruct (head (classes (gr s) x)) as [c|] eqn:Ec; [|done].
    destruct (named c) as [a|] eqn:Ea; [|done].
    destruct (attr_values (gr s) x a) as [|v vs] eqn:Ev; [done|].
    exists c, a, v. split; [|split; [done|split; [|done]]].
    + apply elem_classes. destruct (classes (gr s) x); [done|]. injection Ec as ->. left.
    + apply elem_attr_values. rewrite Ev. left.
  - intros (H1 & c & a & v & H2 & H3 & H4 & H5). split; [done|].
    apply elem_classes in H2 as H2'. destruct (classes (gr s) x) as [|c' cs] eqn:Ec; [by apply elem_of_nil in H2'|].
    simpl. assert (c' = c) as ->.
    { apply (Hone x); [|done]. apply elem_classes. rewrite Ec. left. }
    rewrite H3. apply elem_attr_values in H4 as H4'.
    destruct (attr_values (gr s) x a) as [|v' vs] eqn:Ev; [by apply elem_of_nil in H4'|].
    assert (v' = v) as ->; [|done]. apply (Hval x a); [|done]. apply elem_attr_values. rewrite Ev. left.
Qed.

(** registry.filter, filter_by_relationships: exactly the objects of the session
    that satisfy the criterion, reachable or not. *)
Theorem C55_filter s crit u : NoDup (reg_filter s crit) /\ (u ∈ reg_filter s crit <-> u ∈ reg s /\ crit u = true).
Proof.
  unfold reg_filter. split; [apply stdpp.list.NoDup_filter, NoDup_elements|].
  rewrite elem_of_list_filter, elem_of_elements. tauto.
Qed.
Theorem C55_filter_by_relationships O s r subs u :
  u ∈ reg_filter s (has_relationship O s r subs) <->
  u ∈ reg s /\ exists q v, connected s u q v /\ (if subs then o_sub O q r = true else q = r).
Proof.
  rewrite (proj2 (C55_filter s (has_relationship O s r subs) u)). by rewrite has_relationship_spec.
Qed.

(** filter_by_oclass returns the objects of exactly this class (not of its
    subclasses) if every object has one class; *)
Theorem C55_filter_by_oclass s c u :
  (forall v c d, (v, TType c) ∈ gr s -> (v, TType d) ∈ gr s -> c = d) ->
  u ∈ filter_by_oclass s c <-> u ∈ reg s /\ (u, TType c) ∈ gr s.
Proof.
  intros Hone. unfold filter_by_oclass.
  rewrite (proj2 (C55_filter s (fun u => bool_decide (head (classes (gr s) u) = Some c)) u)), bool_decide_eq_true.
  rewrite <- elem_classes. destruct (classes (gr s) u) as [|d ds] eqn:E.
  - split; [by intros [_ ?]|]. intros [_ H]. by apply elem_of_nil in H.
  - simpl. split.
    + intros [H1 [= ->]]. split; [done|left].
    + intros [H1 H2]. split; [done|]. f_equal. apply (Hone u); apply elem_classes; rewrite E; [left|done].
Qed.
(** an object with two classes is found under one of them only. *)
Theorem C55_second_class_refuted :
  exists s, reachable exO s /\ (11, TType 3) ∈ gr s /\ (11, TType 4) ∈ gr s /\
    length (filter_by_oclass s 3 ++ filter_by_oclass s 4) = 1%nat.
Proof.
  exists (run exO [Create 11 3 []; Create 11 4 []]).
  split; [apply run_reachable; by vm_compute|].
  split; [apply (bool_decide_unpack _); by vm_compute|].
  split; [apply (bool_decide_unpack _); by vm_compute|]. by vm_compute.
Qed.
Example C55_example :
  find_all_below exO 10 exS None (has_relationship exO exS 5 false) 11 = Some [12; 13] /\
  find_all_below exO 10 exS (Some 1) (attr_equals exS (fun _ => Some 21) (fun l => bool_decide (l = (2, 1)))) 11 = Some [11] /\
  elements (relationships_between exS 11 12) = [1] /\
  filter_by_oclass exS 4 = [13; 12].
Proof. repeat split; vm_compute; reflexivity. Qed.

Print Assumptions C53_delete_recursively.
Print Assumptions C53_max_depth.
Print Assumptions C53_max_depth_enough.
Print Assumptions C53_max_depth_neighbours.
Print Assumptions C54_remove_cuds_object.
Print Assumptions C55_find_relationships.
