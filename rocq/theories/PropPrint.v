(** Theorems about pretty_print (C56) and Cuds2dot (C57). *)
From stdpp Require Import base sets list gmap sorting relations.
From Verif Require Import Prelude Utf8 Uuid Cuds CudsProofs Traverse Utils Print PrintProofs DotProofs PropCuds PropTraverse PropUtils.
From Verif Require PropUuid.
Local Open Scope N_scope.

(** ** Order of texts *)
Lemma str_cmp_eq x y : str_cmp x y = Eq <-> x = y.
Proof.
  revert y. induction x as [|a x IH]; intros [|b y]; simpl; try done.
  destruct (N.compare_spec a b) as [->|H|H]; [|split; intros; simplify_eq; lia..].
  rewrite IH. split; congruence.
Qed.
Lemma str_cmp_anti x y : str_cmp y x = CompOpp (str_cmp x y).
Proof.
  revert y. induction x as [|a x IH]; intros [|b y]; simpl; try done.
  rewrite (N.compare_antisym a b). destruct (N.compare a b); simpl; [apply IH|done..].
Qed.
Lemma str_cmp_trans x y z : str_cmp x y = Lt -> str_cmp y z = Lt -> str_cmp x z = Lt.
Proof.
  revert y z. induction x as [|a x IH]; intros [|b y] [|c z]; simpl; try done.
  destruct (N.compare_spec a b) as [->|H|H]; [|intros _|done].
  - destruct (N.compare_spec b c) as [->|H'|H']; [apply IH|done|done].
  - destruct (N.compare_spec b c) as [->|H'|H']; [intros _| |done].
    + by rewrite (proj2 (N.compare_lt_iff _ _)).
    + intros _. by rewrite (proj2 (N.compare_lt_iff _ _)) by lia.
Qed.
Lemma name_cmp_eq x y : name_cmp x y = Eq <-> x = y.
Proof. destruct x, y; simpl; rewrite ?str_cmp_eq; naive_solver. Qed.
Lemma name_cmp_anti x y : name_cmp y x = CompOpp (name_cmp x y).
Proof. destruct x, y; simpl; [apply str_cmp_anti|done..]. Qed.
Lemma name_cmp_trans x y z : name_cmp x y = Lt -> name_cmp y z = Lt -> name_cmp x z = Lt.
Proof. destruct x, y, z; simpl; try done. apply str_cmp_trans. Qed.

Lemma key_cmp_anti L x y : key_cmp L y x = CompOpp (key_cmp L x y).
Proof.
  unfold key_cmp. rewrite (str_cmp_anti (l_class L x.1)), (str_cmp_anti (l_rel L x.2)), (name_cmp_anti (l_name L x.1)).
  destruct (str_cmp (l_class L x.1) _); simpl; try done.
  destruct (str_cmp (l_rel L x.2) _); simpl; try done.
Qed.
Lemma key_le_spec L x y : key_le L x y <->
  str_cmp (l_class L x.1) (l_class L y.1) = Lt \/
  l_class L x.1 = l_class L y.1 /\
   (str_cmp (l_rel L x.2) (l_rel L y.2) = Lt \/
    l_rel L x.2 = l_rel L y.2 /\ (name_cmp (l_name L x.1) (l_name L y.1) = Lt \/ l_name L x.1 = l_name L y.1)).
Proof.
  unfold key_le, key_cmp. rewrite <- !str_cmp_eq, <- name_cmp_eq.
  destruct (str_cmp (l_class L x.1) _); [|naive_solver..].
  destruct (str_cmp (l_rel L x.2) _); [|naive_solver..].
  destruct (name_cmp (l_name L x.1) _); naive_solver.
Qed.
Global Instance key_le_total L : Total (key_le L).
Proof.
  intros x y. unfold key_le. rewrite (key_cmp_anti L x y). destruct (key_cmp L x y); simpl; naive_solver.
Qed.
Global Instance key_le_trans L : Transitive (key_le L).
Proof.
  intros x y z. rewrite !key_le_spec.
  intros [H1|(H1 & [H2|(H2 & [H3|H3])])] [K1|(K1 & [K2|(K2 & [K3|K3])])];
    rewrite ?H1, ?K1, ?H2, ?K2, ?H3, ?K3 in *;
    first [ left; by eapply str_cmp_trans | left; congruence | idtac ];
    right; (split; [congruence|]);
    first [ left; by eapply str_cmp_trans | left; congruence | idtac ];
    right; (split; [congruence|]);
    first [ left; by eapply name_cmp_trans | left; congruence | idtac ].
  right. congruence.
Qed.

(** ** Specification of C56 *)

Definition active (O : onto) (r : rel) : Prop := o_sub O r (o_active O) = true.
(** reachable through active relationships *)
Definition below_via (O : onto) (s : sess) (u x : uid) : Prop := reachable_via O s (Some (o_active O)) u x.

(** Among the objects that a is connected to by (sub-relationships of) one of its
    active relationships there are two, printed with the same class and the same
    relationship, of which one has a name and the other has none. *)
Definition name_clash (O : onto) (s : sess) (L : labels) (a : uid) : Prop :=
  exists r c v q v' q',
    active O r /\ connected s a r c /\
    connected s a q v /\ o_sub O q r = true /\ connected s a q' v' /\ o_sub O q' r = true /\
    l_class L v = l_class L v' /\ l_rel L q = l_rel L q' /\ l_name L v = None /\ l_name L v' <> None.

(** x is listed before y: by class, then by name. *)
Definition listed_before (L : labels) (x y : uid) : Prop :=
  str_cmp (l_class L x) (l_class L y) = Lt \/
  l_class L x = l_class L y /\ (l_name L x = l_name L y \/ name_cmp (l_name L x) (l_name L y) = Lt).

(** ** Proofs *)
Lemma iter_rel_spec O s u r :
  sess_inv O s ->
  exists ps, iter_rel O s u r = Ok ps /\ NoDup ps /\
    forall b q, (b, q) ∈ ps <-> connected s u q b /\ o_sub O q r = true.
Proof.
  intros Hinv. unfold iter_rel.
  destruct (get__spec O s u [] (Some r) None) as [(Hu & _)|(_ & found & m & -> & Hwf & Hin & _ & _)]; [done|].
  assert (Hm : forall b q, rm_in m b q <-> connected s u q b /\ o_sub O q r = true).
  { intros b q. rewrite Hin. unfold matching. split.
    - intros (? & H & _). split; [done|]. by apply H.
    - intros [? H]. repeat split; try done. by intros ? [= <-]. }
  assert (Hall : forallb (fun ur : uid * gset rel => bool_decide (fst ur ∈ reg s)) m = true).
  { apply forallb_forall. intros [b rs] Hb. apply bool_decide_eq_true. simpl.
    apply elem_of_list_In in Hb. destruct Hwf as [_ Hne].
    rewrite stdpp.list.Forall_forall in Hne. specialize (Hne _ Hb). simpl in Hne.
    apply set_choose_L in Hne as [q Hq].
    assert (rm_in m b q) as Hr by (by exists rs). apply Hm in Hr as [Hr _]. by eapply linked_in_reg. }
  rewrite Hall. eexists. split; [done|]. split.
  - destruct Hwf as [Hk _]. clear -Hk. induction m as [|[b rs] m IH]; [constructor|].
    cbn [flat_map fst snd]. csimpl in Hk. apply stdpp.list.NoDup_cons in Hk as [Hn Hk].
    apply NoDup_app. split; [|split; [|by apply IH]].
    + change (NoDup ((fun q => (b, q)) <$> elements rs)). apply NoDup_fmap_2; [|apply NoDup_elements]. intros ??. congruence.
    + intros [b' q] H1 H2. apply elem_of_list_In, in_map_iff in H1 as (? & [= <- <-] & _).
      apply elem_of_list_In, in_flat_map in H2 as ([b' rs'] & Hi & H2).
      apply in_map_iff in H2 as (? & [= <- <-] & _). apply Hn, elem_of_list_fmap. exists (b', rs').
      split; [done|]. by apply elem_of_list_In.
  - intros b q. rewrite <- Hm. unfold rm_in. rewrite elem_of_list_In, in_flat_map. split.
    + intros ([b' rs] & Hi & H2). apply in_map_iff in H2 as (? & [= <- <-] & H2). exists rs.
      split; [by apply elem_of_list_In|]. by apply elem_of_elements, elem_of_list_In.
    + intros (rs & Hi & Hq). exists (b, rs). split; [by apply elem_of_list_In|].
      apply in_map_iff. exists q. split; [done|]. by apply elem_of_list_In, elem_of_elements.
Qed.

Definition clash_in (L : labels) (ps : list (uid * rel)) : Prop :=
  exists v q v' q', (v, q) ∈ ps /\ (v', q') ∈ ps /\
    l_class L v = l_class L v' /\ l_rel L q = l_rel L q' /\ l_name L v = None /\ l_name L v' <> None.
Lemma sort_pairs_spec L ps :
  (sort_pairs L ps = Err TypeError /\ clash_in L ps) \/
  (sort_pairs L ps = Ok (merge_sort (key_le L) ps) /\ ~ clash_in L ps).
Proof.
  unfold sort_pairs. destruct (existsb _ ps) eqn:E; [left|right]; (split; [done|]).
  - apply existsb_exists in E as ([v q] & H1 & E). apply existsb_exists in E as ([v' q'] & H2 & E).
    unfold incomparable in E. rewrite !andb_true_iff, !bool_decide_eq_true in E. simpl in E.
    exists v, q, v', q'. rewrite !elem_of_list_In. tauto.
  - intros (v & q & v' & q' & H1 & H2 & H). apply not_true_iff_false in E. apply E.
    apply existsb_exists. exists (v, q). split; [by apply elem_of_list_In|].
    apply existsb_exists. exists (v', q'). split; [by apply elem_of_list_In|].
    unfold incomparable. rewrite !andb_true_iff, !bool_decide_eq_true. simpl. tauto.
Qed.

Lemma elem_own_of r ps b : b ∈ own_of r ps <-> (b, r) ∈ ps.
Proof.
  unfold own_of. rewrite elem_of_list_omap. split.
  - intros ([b' q] & Hi & H). simpl in H. by case_decide; simplify_eq.
  - intros H. exists (b, r). split; [done|]. simpl. by rewrite decide_True.
Qed.
Lemma NoDup_own_of r ps : NoDup ps -> NoDup (own_of r ps).
Proof.
  induction 1 as [|[b q] ps Hn _ IH]; [constructor|]. unfold own_of. csimpl. case_decide; [|done].
  subst. apply stdpp.list.NoDup_cons. split; [|done]. intros H. apply Hn. by apply elem_own_of.
Qed.
Lemma sorted_own_of L r ps :
  StronglySorted (key_le L) ps -> StronglySorted (listed_before L) (own_of r ps).
Proof.
  induction 1 as [|[b q] ps H IH HF]; [constructor|]. unfold own_of. csimpl. case_decide as Hq; [|done].
  simpl in Hq. subst q. constructor; [done|]. apply stdpp.list.Forall_forall. intros b' Hb'.
  apply elem_own_of in Hb'. rewrite stdpp.list.Forall_forall in HF. specialize (HF _ Hb').
  apply key_le_spec in HF. simpl in HF. unfold listed_before.
  rewrite (proj2 (str_cmp_eq (l_rel L r) (l_rel L r)) eq_refl) in HF. destruct HF as [?|(? & [?|(_ & [?|?])])]; naive_solver.
Qed.

Lemma kids_spec O s L u r :
  sess_inv O s ->
  (kids O s L u r = Err TypeError /\
     exists v q v' q', connected s u q v /\ o_sub O q r = true /\ connected s u q' v' /\ o_sub O q' r = true /\
       l_class L v = l_class L v' /\ l_rel L q = l_rel L q' /\ l_name L v = None /\ l_name L v' <> None) \/
  (exists ps, kids O s L u r = Ok ps /\ NoDup ps /\ StronglySorted (key_le L) ps /\
     (forall b q, (b, q) ∈ ps <-> connected s u q b /\ o_sub O q r = true) /\
     ~ exists v q v' q', connected s u q v /\ o_sub O q r = true /\ connected s u q' v' /\ o_sub O q' r = true /\
       l_class L v = l_class L v' /\ l_rel L q = l_rel L q' /\ l_name L v = None /\ l_name L v' <> None).
Proof.
  intros Hinv. unfold kids. destruct (iter_rel_spec O s u r Hinv) as (ps & -> & Hnd & Hin).
  destruct (sort_pairs_spec L ps) as [[-> H]|[-> H]]; [left|right].
  - split; [done|]. destruct H as (v & q & v' & q' & H1 & H2 & H). apply Hin in H1 as [? ?]. apply Hin in H2 as [? ?].
    exists v, q, v', q'. tauto.
  - eexists. split; [done|]. split; [by rewrite (merge_sort_Permutation (key_le L) ps)|].
    split; [apply StronglySorted_merge_sort; apply _|]. split.
    + intros b q. rewrite merge_sort_Permutation. apply Hin.
    + intros (v & q & v' & q' & H'). apply H. exists v, q, v', q'. rewrite !Hin. tauto.
Qed.

Lemma elem_sorted_rels O s L u r :
  r ∈ sorted_rels O s L u <-> active O r /\ exists b, connected s u r b.
Proof.
  unfold sorted_rels. rewrite merge_sort_Permutation, elem_of_list_filter, elem_rels_of. done.
Qed.
Lemma NoDup_sorted_rels O s L u : NoDup (sorted_rels O s L u).
Proof.
  unfold sorted_rels. rewrite merge_sort_Permutation. apply stdpp.list.NoDup_filter. apply NoDup_remove_dups.
Qed.

Section Pretty.
  Context (O : onto) (s : sess) (L : labels) (Hinv : sess_inv O s) (Hrefl : forall r, o_sub O r r = true).

  Lemma below_related a b : below (sorted_rels O s L) (kids O s L) a b -> related O s (Some (o_active O)) a b.
  Proof.
    intros (r & ps & Hr & Hk & Hb). apply elem_sorted_rels in Hr as [Hr _].
    apply elem_own_of in Hb. destruct (kids_spec O s L a r Hinv) as [[Hk' _]|(ps' & Hk' & _ & _ & Hin & _)]; [congruence|].
    rewrite Hk in Hk'. injection Hk' as <-. apply Hin in Hb as [Hb _].
    exists r. split; [done|]. by intros ? [= <-].
  Qed.
  Lemma below_reachable u a : rtc (below (sorted_rels O s L) (kids O s L)) u a -> below_via O s u a.
  Proof.
    intros H. revert a H. apply rtc_ind_r; [constructor|].
    intros y z _ Hyz IH. eapply rv_step; [exact IH|]. by apply below_related.
  Qed.
  Lemma bad_clash a : bad (sorted_rels O s L) (kids O s L) a -> name_clash O s L a.
  Proof.
    intros (r & Hr & Hk). apply elem_sorted_rels in Hr as (Hr & c & Hc).
    destruct (kids_spec O s L a r Hinv) as [[_ H]|(ps' & Hk' & _)]; [|congruence].
    destruct H as (v & q & v' & q' & H). exists r, c, v, q, v', q'. done.
  Qed.
  Lemma clash_bad a : name_clash O s L a -> bad (sorted_rels O s L) (kids O s L) a.
  Proof.
    intros (r & c & v & q & v' & q' & Hr & Hc & H). exists r. split; [apply elem_sorted_rels; eauto|].
    destruct (kids_spec O s L a r Hinv) as [[? _]|(ps' & _ & _ & _ & _ & Hno)]; [done|].
    destruct Hno. by exists v, q, v', q'.
  Qed.

  Lemma pretty_cases u fuel :
    u ∈ reg s -> (size (reg s) <= fuel)%nat ->
    (exists V ls, pp_subelements (sorted_rels O s L) (kids O s L) fuel 0 u ∅ = Ok (V, ls) /\
       seg (sorted_rels O s L) (kids O s L) (reg s) u (∅ ∪ {[u]}) V ls /\
       expanded (sorted_rels O s L) (kids O s L) u ls) \/
    (pp_subelements (sorted_rels O s L) (kids O s L) fuel 0 u ∅ = Err TypeError /\
       exists a, rtc (below (sorted_rels O s L) (kids O s L)) u a /\ bad (sorted_rels O s L) (kids O s L) a).
  Proof.
    intros Hu Hf. apply (pp_spec (sorted_rels O s L) (kids O s L) (reg s)).
    - intros. apply NoDup_sorted_rels.
    - intros a r _ _. destruct (kids_spec O s L a r Hinv) as [[? _]|(ps & ? & _ & _ & Hin & _)]; [by left|right].
      exists ps. split; [done|]. intros b q [Hq _]%Hin. by eapply linked_in_reg.
    - done.
    - set_solver.
    - eapply Nat.lt_le_trans; [|exact Hf]. apply subset_size. split; [set_solver|].
      intros Hss. specialize (Hss u Hu). set_solver.
  Qed.

  Lemma pretty_full u V ls :
    seg (sorted_rels O s L) (kids O s L) (reg s) u (∅ ∪ {[u]}) V ls ->
    expanded (sorted_rels O s L) (kids O s L) u ls ->
    (forall x, x ∈ u :: fulls ls <-> below_via O s u x) /\
    (forall a, below_via O s u a -> expanded (sorted_rels O s L) (kids O s L) a ls).
  Proof.
    intros Hs He.
    assert (Hexp : forall a, a ∈ u :: fulls ls -> expanded (sorted_rels O s L) (kids O s L) a ls).
    { intros a Ha. destruct (decide (a = u)) as [->|Hne]; [done|].
      apply (s_full _ _ _ _ _ _ _ Hs); [done|]. apply elem_of_cons in Ha as [?|?]; done. }
    assert (Hx : forall x, x ∈ u :: fulls ls <-> below_via O s u x).
    { intros x. split.
      - rewrite elem_of_cons. intros [->|Hx]; [constructor|]. apply below_reachable.
        by apply (s_reach _ _ _ _ _ _ _ Hs).
      - induction 1 as [|b c _ IH (r & Hc & Hr)]; [by left|].
        assert (Hr' : r ∈ sorted_rels O s L b) by (apply elem_sorted_rels; split; [by apply Hr|by exists c]).
        destruct (Hexp b IH r) as [Hab _]. destruct (Hab Hr') as (ps & Hk & Habout).
        assert (Hin : c ∈ own_of r ps).
        { apply elem_own_of. destruct (kids_spec O s L b r Hinv) as [[? _]|(ps' & Hk' & _ & _ & Hin & _)]; [congruence|].
          rewrite Hk in Hk'. injection Hk' as <-. by apply Hin. }
        assert (Hso : Some c ∈ about b r ls).
        { rewrite Habout. right. by apply elem_of_list_fmap_1. }
        assert (exists k f, LObj k b r c f ∈ ls) as (k & f & Hl).
        { clear -Hso. induction ls as [|[k a q|k a q d f] l IH]; simpl in Hso; [by apply elem_of_nil in Hso| |].
          - destruct (decide (a = b ∧ q = r)).
            + apply elem_of_cons in Hso as [?|Hso]; [done|]. destruct (IH Hso) as (k' & f' & ?). exists k', f'. by right.
            + destruct (IH Hso) as (k' & f' & ?). exists k', f'. by right.
          - destruct (decide (a = b ∧ q = r)) as [[-> ->]|].
            + apply elem_of_cons in Hso as [[= <-]|Hso]; [exists k, f; by left|].
              destruct (IH Hso) as (k' & f' & ?). exists k', f'. by right.
            + destruct (IH Hso) as (k' & f' & ?). exists k', f'. by right. }
        apply (s_tgt _ _ _ _ _ _ _ Hs), (s_vis _ _ _ _ _ _ _ Hs) in Hl. rewrite elem_of_cons.
        destruct Hl as [Hl|Hl]; [left; set_solver|by right]. }
    split; [done|]. intros a Ha. by apply Hexp, Hx.
  Qed.
End Pretty.

(** ** C56 *)

(** pretty_print ends after printing, for every object that can be reached through
    active relationships, each of its active relationships with every object it is
    connected to; every reachable object in full exactly once. *)
Theorem C56_pretty_print O s L fuel u :
  bidirectional O s -> closed s -> (forall r, o_sub O r r = true) ->
  u ∈ reg s -> (size (reg s) <= fuel)%nat ->
  (forall a, below_via O s u a -> ~ name_clash O s L a) ->
  exists ls, pretty_print O s L fuel u = Ok ls /\
    (* every reachable object is printed in full once (u itself as the title) *)
    NoDup (u :: fulls ls) /\ (forall x, x ∈ u :: fulls ls <-> below_via O s u x) /\
    (* below each reachable object: one header per active relationship, followed by
       the connected objects, sorted *)
    (forall a r, below_via O s u a -> active O r -> (exists b, connected s a r b) ->
       exists bs, about a r ls = None :: (Some <$> bs) /\ NoDup bs /\
         (forall b, b ∈ bs <-> connected s a r b) /\ StronglySorted (listed_before L) bs) /\
    (* nothing else is printed *)
    (forall a r, about a r ls <> [] -> below_via O s u a /\ active O r /\ exists b, connected s a r b) /\
    (* "(already printed)" is true *)
    (forall l1 k a r b l2, ls = l1 ++ LObj k a r b false :: l2 -> b = u \/ b ∈ fulls l1) /\
    (* the indentation tells to which object and relationship a line belongs *)
    nested (fun _ => u) (fun _ => None) ls.
Proof.
  intros Hb Hc Hrefl Hu Hf Hno. assert (Hinv : sess_inv O s) by done.
  destruct (pretty_cases O s L Hinv Hrefl u fuel Hu Hf) as [(V & ls & Hpp & Hs & He)|[_ (a & Ha & Hbad)]].
  2:{ exfalso. eapply Hno; [by eapply below_reachable|]. by eapply bad_clash. }
  destruct (pretty_full O s L Hinv Hrefl u V ls Hs He) as [Hx Hexp].
  exists ls. unfold pretty_print. rewrite Hpp. split; [done|]. split; [|split; [done|split; [|split; [|split]]]].
  - apply stdpp.list.NoDup_cons. split; [|apply (s_nodup _ _ _ _ _ _ _ Hs)].
    intros H. apply (s_new _ _ _ _ _ _ _ Hs u H). set_solver.
  - intros a r Ha Hr Hcon. destruct (Hexp a Ha r) as [Hab _].
    destruct Hab as (ps & Hk & Hab); [by apply elem_sorted_rels|].
    destruct (kids_spec O s L a r Hinv) as [[? _]|(ps' & Hk' & Hnd & Hsort & Hin & _)]; [congruence|].
    rewrite Hk in Hk'. injection Hk' as <-. exists (own_of r ps). split; [done|].
    split; [by apply NoDup_own_of|]. split; [|by apply sorted_own_of].
    intros b. rewrite elem_own_of, Hin. split; [tauto|]. intros. split; [done|apply Hrefl].
  - intros a r Hne. destruct (decide (a ∈ u :: fulls ls)) as [Ha|Ha].
    + destruct (decide (r ∈ sorted_rels O s L a)) as [Hr|Hr].
      * split; [by apply Hx|]. by apply elem_sorted_rels in Hr.
      * destruct Hne. destruct (Hexp a (proj1 (Hx a) Ha) r) as [_ H]. by apply H.
    + destruct Hne. apply not_elem_of_cons in Ha as [Ha1 Ha2].
      by apply (s_other _ _ _ _ _ _ _ Hs).
  - intros l1 k a r b l2 Heq. destruct (s_already _ _ _ _ _ _ _ Hs _ _ _ _ _ _ Heq) as [H|H]; [left; set_solver|by right].
  - eapply (pp_indent (sorted_rels O s L) (kids O s L) fuel 0); [exact Hpp|done].
Qed.

(** It raises (TypeError) exactly if some reachable object has a name clash. *)
Theorem C56_error O s L fuel u e :
  bidirectional O s -> closed s -> (forall r, o_sub O r r = true) ->
  u ∈ reg s -> (size (reg s) <= fuel)%nat ->
  pretty_print O s L fuel u = Err e <->
  e = TypeError /\ exists a, below_via O s u a /\ name_clash O s L a.
Proof.
  intros Hb Hc Hrefl Hu Hf. assert (Hinv : sess_inv O s) by done. unfold pretty_print.
  destruct (pretty_cases O s L Hinv Hrefl u fuel Hu Hf) as [(V & ls & Hpp & Hs & He)|[Hpp (a & Ha & Hbad)]]; rewrite Hpp.
  - split; [done|]. intros (_ & a & Ha & Hcl). exfalso.
    destruct (pretty_full O s L Hinv Hrefl u V ls Hs He) as [_ Hexp].
    destruct (clash_bad O s L Hinv a Hcl) as (r & Hr & Hk).
    destruct (Hexp a Ha r) as [Hab _]. destruct (Hab Hr) as (ps & Hk' & _). congruence.
  - split; [|by intros [-> _]]. intros [= <-]. split; [done|]. exists a.
    split; [by eapply below_reachable|by eapply bad_clash].
Qed.

(** A concrete session with a cycle: 11 -> 13 -> 12, 13 -> 11, 12 -> 13.  Objects 11
    and 12 are of the same class. *)
Definition exL (name12 : option str) : labels :=
  Labels (fun u => if decide (u = 13) then [66] else [65]) (fun r => [r])
    (fun u => if decide (u = 12) then name12 else Some [u]).
Lemma exO_refl r : o_sub exO r r = true.
Proof. simpl. by rewrite bool_decide_true. Qed.
Definition exP : sess :=
  run exO [Create 11 3 []; Create 12 4 []; Create 13 4 []; Add 11 1 [13]; Add 13 1 [12; 11]; Add 12 1 [13]].
Lemma exP_reachable : reachable exO exP.
Proof. apply run_reachable. by vm_compute. Qed.
Example C56_example :
  pretty_print exO exP (exL (Some [9])) 3 11 =
    Ok [LRel 0 11 1; LObj 0 11 1 13 true; LRel 1 13 1; LObj 1 13 1 12 true;
        LRel 2 12 1; LObj 2 12 1 13 false; LObj 1 13 1 11 false].
Proof. by vm_compute. Qed.
(** "pretty_print prints every object": one object without a name (created with
    _force=True) next to a named one of the same class, and nothing is printed. *)
Theorem C56_missing_name_refuted :
  exists s L, reachable exO s /\ 11 ∈ reg s /\
    forall fuel, (size (reg s) <= fuel)%nat -> pretty_print exO s L fuel 11 = Err TypeError.
Proof.
  exists exP, (exL None). split; [apply exP_reachable|].
  assert (H11 : 11 ∈ reg exP) by (apply (bool_decide_unpack _); by vm_compute).
  split; [exact H11|]. intros fuel Hf.
  destruct (reachable_inv exO exP exO_involutive exO_covers exP_reachable) as [Hb Hc].
  apply C56_error; [exact Hb|exact Hc|apply exO_refl|exact H11|exact Hf|].
  split; [reflexivity|]. exists 13.
  assert (Hc1 : connected exP 11 1 13) by (unfold connected; apply (bool_decide_unpack _); by vm_compute).
  assert (Hc2 : connected exP 13 1 12) by (unfold connected; apply (bool_decide_unpack _); by vm_compute).
  assert (Hc3 : connected exP 13 1 11) by (unfold connected; apply (bool_decide_unpack _); by vm_compute).
  split.
  - eapply rv_step; [constructor|]. exists 1. split; [exact Hc1|]. intros ? [= <-]. reflexivity.
  - exists 1, 12, 12, 1, 11, 1.
    split; [reflexivity|]. split; [exact Hc2|]. split; [exact Hc2|]. split; [reflexivity|].
    split; [exact Hc3|]. split; [reflexivity|]. split; [reflexivity|]. split; [reflexivity|].
    split; [reflexivity|]. discriminate.
Qed.

(** ** C57 *)

(** reachable through cuba.relationship *)
Definition linked_via (O : onto) (s : sess) (u x : uid) : Prop := reachable_via O s (Some (o_relationship O)) u x.

(** Rendering ends with one node per object reachable through cuba.relationship and
    one edge per connection between such an object and an object related to it
    through cuba.relationship. *)
Theorem C57_render O s fuel u :
  bidirectional O s -> closed s -> u ∈ reg s -> (size (reg s) <= fuel)%nat ->
  exists d, render O s u fuel new_drawing = Some d /\
    NoDup (dnodes (d_graph d)) /\ (forall x, x ∈ dnodes (d_graph d) <-> linked_via O s u x) /\
    NoDup (dedges (d_graph d)) /\
    (forall a r b, (a, r, b) ∈ dedges (d_graph d) <->
       linked_via O s u a /\ connected s a r b /\ related O s (Some (o_relationship O)) a b) /\
    Forall (ids_ok u) (d_graph d).
Proof.
  intros Hb Hc Hu Hf. assert (Hinv : sess_inv O s) by done.
  assert (Hnb : forall a b, b ∈ iter_nbrs O s (Some (o_relationship O)) a <-> related O s (Some (o_relationship O)) a b).
  { intros a b. by rewrite (elem_iter_nbrs O s (Some (o_relationship O)) a b Hinv). }
  unfold render.
  destruct (add_directly_related_spec O s u (reg s)) with (f := fuel)
    (d := visit (add_node u new_drawing u) u) (a := u) as (V & x & Hx & Hs).
  - intros a. destruct (get_all_spec O s a (Some (o_relationship O)) None Hinv) as (bs & Hg & Hnd & _).
    unfold iter_nbrs. rewrite Hg. clear -Hnd. replace (omap id (Some <$> bs)) with bs; [done|].
    clear. induction bs as [|b bs IH]; csimpl; [done|]. by rewrite <- IH.
  - intros a b Ha. by apply iter_nbrs_closed.
  - done.
  - cbn [visit d_visited]. set_solver.
  - cbn [visit d_visited]. eapply Nat.lt_le_trans; [|exact Hf]. apply subset_size. split; [set_solver|].
    intros Hss. specialize (Hss u Hu). set_solver.
  - rewrite Hx. eexists. split; [done|]. cbn [d_graph visit add_node new_drawing app d_visited] in *.
    assert (HV : forall y, y ∈ V <-> y ∈ u :: dnodes x).
    { intros y. rewrite (ds_vis _ _ _ _ _ _ _ _ _ Hs), elem_of_cons, elem_of_union, elem_of_singleton. clear. set_solver. }
    assert (Hreach : forall y, y ∈ u :: dnodes x <-> linked_via O s u y).
    { intros y. split.
      - rewrite elem_of_cons. intros [->|Hy]; [constructor|].
        apply (ds_reach _ _ _ _ _ _ _ _ _ Hs) in Hy. revert y Hy. apply rtc_ind_r; [constructor|].
        intros y z _ Hyz IH. eapply rv_step; [exact IH|]. by apply Hnb.
      - induction 1 as [|b c _ IH Hr]; [by left|]. apply HV.
        apply Hnb in Hr. apply elem_of_cons in IH as [->|IH].
        + by apply (ds_tgt _ _ _ _ _ _ _ _ _ Hs).
        + by eapply (ds_tgt2 _ _ _ _ _ _ _ _ _ Hs). }
    cbn [dnodes dedges]. split; [|split; [|split; [|split]]].
    + apply stdpp.list.NoDup_cons. split; [|apply (ds_nodup _ _ _ _ _ _ _ _ _ Hs)].
      intros H. apply (ds_new _ _ _ _ _ _ _ _ _ Hs) in H. clear -H. set_solver.
    + done.
    + apply (ds_nodupe _ _ _ _ _ _ _ _ _ Hs).
    + intros a r b. rewrite (ds_edges _ _ _ _ _ _ _ _ _ Hs), <- Hreach, elem_of_cons. unfold rel_between.
      rewrite <- !Hnb. rewrite !C55_relationships_between.
      split; [intros [(-> & ? & ?)|(? & ? & ?)]; tauto|]. intros ([->|?] & ? & ?); tauto.
    + constructor; [|apply (ds_ids _ _ _ _ _ _ _ _ _ Hs)]. split; [done|]. apply bool_decide_eq_true.
Qed.

(** The written graph: node ids and labelled edges between ids. *)
Definition node_ids (g : list dot) : list str := omap (fun x => match x with DNode i _ _ => Some i | _ => None end) g.
Definition id_edges (g : list dot) : list (str * rel * str) :=
  omap (fun x => match x with DEdge i j _ r _ => Some (i, r, j) | _ => None end) g.
Definition coloured (g : list dot) : list str :=
  omap (fun x => match x with DNode i _ true => Some i | _ => None end) g.

Lemma inv3 {A B C} (a a' : A) (b b' : B) (c c' : C) : (a, b, c) = (a', b', c') -> a = a' /\ b = b' /\ c = c'.
Proof. intros H. split; [|split]; congruence. Qed.

(** The id of a node shows the first eight and the last three characters of the
    uuid; two objects get the same id exactly when their uuids agree in the first 32
    and the last 12 bits. *)
Lemma hexfix_app a b n : hexfix (a + b) n = hexfix a (n / 16 ^ N.of_nat b) ++ hexfix b n.
Proof.
  revert n. induction b as [|b IH]; intros n.
  - rewrite Nat.add_0_r. cbn. by rewrite N.div_1_r, app_nil_r.
  - rewrite Nat.add_succ_r. cbn [hexfix]. rewrite IH, <- app_assoc. f_equal. f_equal.
    rewrite N.div_div by (try apply N.pow_nonzero; done). f_equal.
    rewrite Nat2N.inj_succ, N.pow_succ_r' by done. done.
Qed.
Lemma hexc_inj a b : a < 16 -> b < 16 -> hexc a = hexc b -> a = b.
Proof. intros Ha Hb H. pose proof (PropUuid.hexval_hexc a Ha). rewrite H, PropUuid.hexval_hexc in H0 by done. congruence. Qed.
Lemma hexfix_inj k a b : hexfix k a = hexfix k b <-> a mod 16 ^ N.of_nat k = b mod 16 ^ N.of_nat k.
Proof.
  revert a b. induction k as [|k IH]; intros a b.
  - cbn. rewrite !N.mod_1_r. done.
  - cbn [hexfix]. rewrite Nat2N.inj_succ, N.pow_succ_r' by done.
    assert (16 ^ N.of_nat k <> 0) as Hk by (by apply N.pow_nonzero).
    rewrite (N.mod_mul_r a 16), (N.mod_mul_r b 16) by done.
    pose proof (N.mod_lt a 16 ltac:(done)) as Ha. pose proof (N.mod_lt b 16 ltac:(done)) as Hb.
    split.
    + intros H. apply app_inj_tail in H as [H1 H2]. apply IH in H1. rewrite H1. f_equal. by apply hexc_inj.
    + intros H. assert (a mod 16 = b mod 16) as E by lia. rewrite E. f_equal. apply IH. lia.
Qed.
Lemma short_text u : shorten_uid u = hexfix 8 (u / 2 ^ 96) ++ [46; 46; 46] ++ hexfix 3 u.
Proof.
  assert (E : hexfix 32 u = hexfix 8 (u / 2 ^ 96) ++ hexfix 21 (u / 2 ^ 12) ++ hexfix 3 u).
  { change 32%nat with (8 + 24)%nat. rewrite hexfix_app. f_equal. change 24%nat with (21 + 3)%nat. by rewrite hexfix_app. }
  pose proof (PropUuid.hexfix_length 8 (u / 2 ^ 96)) as L1.
  pose proof (PropUuid.hexfix_length 21 (u / 2 ^ 12)) as L2.
  pose proof (PropUuid.hexfix_length 3 u) as L3.
  unfold shorten_uid, uuid_str. rewrite E. clear E.
  destruct (hexfix 8 (u / 2 ^ 96)) as [|a1 [|a2 [|a3 [|a4 [|a5 [|a6 [|a7 [|a8 [|]]]]]]]]] eqn:E1; try discriminate L1.
  destruct (hexfix 3 u) as [|c1 [|c2 [|c3 [|]]]] eqn:E3; try discriminate L3.
  set (l := hexfix 21 (u / 2 ^ 12)) in *. clearbody l.
  do 21 (destruct l as [|? l]; [discriminate L2|]). destruct l; [|discriminate L2]. reflexivity.
Qed.
Theorem C57_ids u v : u < 2 ^ 128 -> v < 2 ^ 128 ->
  (exists mid, uuid_str u = firstn 8 (shorten_uid u) ++ mid ++ skipn 11 (shorten_uid u)) /\
  length (shorten_uid u) = 14%nat /\
  (shorten_uid u = shorten_uid v <-> u / 2 ^ 96 = v / 2 ^ 96 /\ u mod 2 ^ 12 = v mod 2 ^ 12).
Proof.
  intros Hu Hv. split; [|split].
  - exists (firstn 25 (skipn 8 (uuid_str u))).
    assert (L : length (uuid_str u) = 36%nat).
    { unfold uuid_str. pose proof (PropUuid.hexfix_length 32 u) as L. rewrite !app_length.
      unfold sub. rewrite !firstn_length, !skipn_length, L. reflexivity. }
    unfold shorten_uid. rewrite L. remember (uuid_str u) as l eqn:E. clear E.
    do 36 (destruct l as [|? l]; [discriminate L|]). destruct l; [|discriminate L]. reflexivity.
  - rewrite short_text, !app_length, !PropUuid.hexfix_length. reflexivity.
  - rewrite !short_text. split.
    + intros H. apply app_inj_1 in H as [H1 H2]; [|by rewrite !PropUuid.hexfix_length].
      apply app_inj_1 in H2 as [_ H2]; [|done]. apply hexfix_inj in H1, H2. split; [|exact H2].
      rewrite !N.mod_small in H1; [exact H1|..]; change (16 ^ N.of_nat 8) with (2 ^ 32);
        apply N.div_lt_upper_bound; done.
    + intros [H1 H2]. rewrite H1. f_equal. f_equal. apply hexfix_inj. exact H2.
Qed.
Local Opaque shorten_uid.
Lemma written g u :
  Forall (ids_ok u) g ->
  node_ids g = shorten_uid <$> dnodes g /\
  id_edges g = (fun e : uid * rel * uid => let '(a, r, b) := e in (shorten_uid a, r, shorten_uid b)) <$> dedges g /\
  coloured g = shorten_uid <$> filter (fun x => shorten_uid x = shorten_uid u) (dnodes g).
Proof.
  induction 1 as [|x g Hx _ (IH1 & IH2 & IH3)]; [done|].
  destruct x as [i v f|i j a r b]; simpl in Hx.
  - destruct Hx as [-> Hf]. cbn [dnodes dedges]. split; [|split].
    + unfold node_ids in *. csimpl. by rewrite IH1.
    + unfold id_edges in *. csimpl. done.
    + unfold coloured in *. csimpl. rewrite filter_cons. destruct f.
      * rewrite decide_True by tauto. csimpl. by rewrite IH3.
      * rewrite decide_False; [done|]. intros H. by apply Hf in H.
  - destruct Hx as [-> ->]. cbn [dnodes dedges]. split; [|split].
    + unfold node_ids in *. csimpl. done.
    + unfold id_edges in *. csimpl. by rewrite IH2.
    + unfold coloured in *. csimpl. done.
Qed.

(** If the shortened uids of the reachable objects differ, and every relationship is
    a cuba.relationship, the written graph is the picture of the session: one node
    per object, one edge per connection, and the root is the coloured node. *)
Theorem C57_picture O s fuel u :
  bidirectional O s -> closed s -> u ∈ reg s -> (size (reg s) <= fuel)%nat ->
  (forall r, o_sub O r (o_relationship O) = true) ->
  (forall x y, linked_via O s u x -> linked_via O s u y -> shorten_uid x = shorten_uid y -> x = y) ->
  exists d, render O s u fuel new_drawing = Some d /\
    NoDup (node_ids (d_graph d)) /\
    (forall i, i ∈ node_ids (d_graph d) <-> exists x, linked_via O s u x /\ i = shorten_uid x) /\
    NoDup (id_edges (d_graph d)) /\
    (forall x r y, linked_via O s u x -> linked_via O s u y ->
       (shorten_uid x, r, shorten_uid y) ∈ id_edges (d_graph d) <-> connected s x r y) /\
    (forall i r j, (i, r, j) ∈ id_edges (d_graph d) ->
       exists x y, linked_via O s u x /\ linked_via O s u y /\ i = shorten_uid x /\ j = shorten_uid y /\ connected s x r y) /\
    coloured (d_graph d) = [shorten_uid u].
Proof.
  intros Hb Hc Hu Hf Hcov Hinj.
  destruct (C57_render O s fuel u Hb Hc Hu Hf) as (d & Hd & Hn & Hnodes & He & Hedges & Hids).
  exists d. split; [done|]. destruct (written _ _ Hids) as (-> & -> & ->).
  assert (Hrel : forall a r b, connected s a r b -> related O s (Some (o_relationship O)) a b).
  { intros a r b H. exists r. split; [done|]. intros ? [= <-]. apply Hcov. }
  assert (Hlv : forall a r b, linked_via O s u a -> connected s a r b -> linked_via O s u b).
  { intros a r b Ha H. eapply rv_step; [exact Ha|]. by eapply Hrel. }
  split; [|split; [|split; [|split; [|split]]]].
  - generalize (fun x => proj1 (Hnodes x)). intros Hn'. clear -Hn Hn' Hinj. induction Hn as [|x l Hx _ IH]; [constructor|].
    csimpl. apply stdpp.list.NoDup_cons. split; [|apply IH; intros y Hy; apply Hn'; by right].
    intros H. apply elem_of_list_fmap in H as (y & Heq & Hy). apply Hx.
    rewrite (Hinj x y); [done|apply Hn'; by left|apply Hn'; by right|done].
  - intros i. rewrite elem_of_list_fmap. setoid_rewrite Hnodes. naive_solver.
  - assert (Hn' : forall a r b, (a, r, b) ∈ dedges (d_graph d) -> linked_via O s u a /\ linked_via O s u b).
    { intros a r b H%Hedges. split; [tauto|]. eapply Hlv; [apply H|apply H]. }
    clear -He Hn' Hinj. induction He as [|[[a r] b] l Hx _ IH]; [constructor|].
    csimpl. apply stdpp.list.NoDup_cons. split; [|apply IH; intros a' r' b' Hy; eapply Hn'; right; exact Hy].
    intros H. apply elem_of_list_fmap in H as ([[a' r'] b'] & Heq & Hy). apply inv3 in Heq as (H1 & <- & H2). apply Hx.
    destruct (Hn' a r b) as [? ?]; [left|]. destruct (Hn' a' r b') as [? ?]; [by right|].
    rewrite (Hinj a a'), (Hinj b b'); done.
  - intros x r y Hx Hy. rewrite elem_of_list_fmap. split.
    + intros ([[a r'] b] & Heq & H). apply inv3 in Heq as (H1 & <- & H2).
      assert (linked_via O s u a /\ linked_via O s u b) as [Ha Hb'].
      { apply Hedges in H. split; [tauto|]. eapply Hlv; [apply H|apply H]. }
      rewrite (Hinj x a), (Hinj y b) by done. by apply Hedges in H as (_ & ? & _).
    + intros H. exists (x, r, y). split; [done|]. apply Hedges. split; [done|]. split; [done|]. by eapply Hrel.
  - intros i r j. rewrite elem_of_list_fmap. intros ([[a r'] b] & Heq & H). apply inv3 in Heq as (-> & -> & ->).
    apply Hedges in H as (Ha & Hcon & _). exists a, b. split; [done|]. split; [by eapply Hlv|]. done.
  - assert (Hu' : u ∈ dnodes (d_graph d)) by (apply Hnodes; constructor).
    assert (Hall : forall x, x ∈ filter (fun x => shorten_uid x = shorten_uid u) (dnodes (d_graph d)) <-> x = u).
    { intros x. rewrite elem_of_list_filter, Hnodes. split; [|intros ->; split; [done|constructor]].
      intros [Heq Hx]. apply Hinj; [done|constructor|done]. }
    assert (Hnd' : NoDup (filter (fun x => shorten_uid x = shorten_uid u) (dnodes (d_graph d))))
      by (by apply stdpp.list.NoDup_filter).
    destruct (filter _ _) as [|x [|y l]].
    + assert (u ∈ @nil uid) as H by (by apply Hall). by apply elem_of_nil in H.
    + assert (x = u) as -> by (apply Hall; by left). done.
    + assert (x = u) as -> by (apply Hall; by left). assert (y = u) as -> by (apply Hall; right; by left).
      apply stdpp.list.NoDup_cons in Hnd' as [Hn' _]. destruct Hn'. by left.
Qed.

Local Transparent shorten_uid.

(** Two different objects can be drawn as the same node: 11 and 4107 are both
    00000000...00b. *)
Theorem C57_collision_refuted :
  exists s, reachable exO s /\ connected s 11 1 4107 /\
    exists d, render exO s 11 2 new_drawing = Some d /\
      dnodes (d_graph d) = [11; 4107] /\ node_ids (d_graph d) = [shorten_uid 11; shorten_uid 11] /\
      coloured (d_graph d) = node_ids (d_graph d).
Proof.
  exists (run exO [Create 11 3 []; Create 4107 4 []; Add 11 1 [4107]]).
  split; [apply run_reachable; by vm_compute|].
  split; [unfold connected; apply (bool_decide_unpack _); by vm_compute|].
  eexists. split; [vm_compute; reflexivity|]. by vm_compute.
Qed.
(** Rendering a second time adds the root and its edges again. *)
Theorem C57_twice_refuted :
  exists s d1 d2, reachable exO s /\ render exO s 11 3 new_drawing = Some d1 /\ render exO s 11 3 d1 = Some d2 /\
    ~ NoDup (dedges (d_graph d2)) /\ ~ NoDup (dnodes (d_graph d2)).
Proof.
  exists exP. eexists _, _. split; [apply exP_reachable|]. split; [vm_compute; reflexivity|].
  split; [vm_compute; reflexivity|].
  split; apply (bool_decide_unpack _); vm_compute; exact I.
Qed.
Example C57_example :
  exists d, render exO exP 11 3 new_drawing = Some d /\ dnodes (d_graph d) = [11; 13; 12] /\
    length (dedges (d_graph d)) = 8%nat.
Proof. eexists. split; [vm_compute; reflexivity|]. by vm_compute. Qed.

Print Assumptions C56_pretty_print.
Print Assumptions C56_error.
Print Assumptions C56_missing_name_refuted.
Print Assumptions C57_ids.
Print Assumptions C57_render.
Print Assumptions C57_picture.
Print Assumptions C57_collision_refuted.
Print Assumptions C57_twice_refuted.
