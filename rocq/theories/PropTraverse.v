(** Theorems about prune, search and subtree traversal (properties C16-C18). *)
From stdpp Require Import base list gmap.
From Verif Require Import Prelude Cuds CudsProofs Traverse PropCuds.
Local Open Scope N_scope.

(** Direct neighbours as the API user sees them. *)
Definition related (O : onto) (s : sess) (rf : option rel) (a b : uid) : Prop :=
  exists r, connected s a r b /\ forall sup, rf = Some sup -> o_sub O r sup = true.

(** b can be reached from a through (sub-relationships of) rf. *)
Inductive reachable_via (O : onto) (s : sess) (rf : option rel) (a : uid) : uid -> Prop :=
| rv_refl : reachable_via O s rf a a
| rv_step b c : reachable_via O s rf a b -> related O s rf b c -> reachable_via O s rf a c.

Lemma reachable_via_reach O s rf a b :
  sess_inv O s -> reachable_via O s rf a b <-> reach (iter_nbrs O s rf) a b.
Proof.
  intros Hinv. split.
  - induction 1 as [|b c _ IH Hr]; [constructor|]. eapply reach_next; [done|].
    by apply elem_iter_nbrs.
  - induction 1 as [|b c _ IH Hr]; [constructor|]. eapply rv_step; [done|].
    by apply elem_iter_nbrs in Hr.
Qed.

Lemma iter_nbrs_closed O s rf :
  sess_inv O s -> forall x y, x ∈ reg s -> y ∈ iter_nbrs O s rf x -> y ∈ reg s.
Proof.
  intros Hinv x y _ Hy. apply elem_iter_nbrs in Hy as (q & Hc & _); [|done].
  by eapply linked_in_reg.
Qed.

(** Evaluation of concrete examples. *)
Lemma opt_ok {A} (x : option (A * option exn)) (P : A -> bool) :
  match x with Some (a, None) => P a | _ => false end = true ->
  exists a, x = Some (a, None) /\ P a = true.
Proof. destruct x as [[a [e|]]|]; [done| |done]. eauto. Qed.
Lemma opt_some {A} (x : option A) (P : A -> bool) :
  match x with Some a => P a | _ => false end = true ->
  exists a, x = Some a /\ P a = true.
Proof. destruct x as [a|]; [|done]. eauto. Qed.

(** ** C16 *)

(** prune(rel) terminates and keeps exactly the objects reachable from the root,
    each with exactly its triples. *)
Theorem C16_prune_exact O s rf r fuel :
  bidirectional O s -> closed s -> root s = Some r -> r ∈ reg s ->
  (size (reg s) < fuel)%nat ->
  exists s', prune O fuel s rf = Some (s', None) /\ root s' = Some r /\
    (forall u, u ∈ reg s' <-> reachable_via O s rf r u) /\
    (forall u p, (u, p) ∈ gr s' <-> (u, p) ∈ gr s /\ reachable_via O s rf r u).
Proof.
  intros Hb Hc Hro Hr Hf.
  destruct (prune_spec O s rf r fuel (conj Hb Hc) Hro Hr Hf) as (s' & Hp & Hro' & Hreg & Ht).
  exists s'. split; [done|]. split; [done|]. split.
  - intros u. by rewrite Hreg, (reachable_via_reach O s rf r u (conj Hb Hc)).
  - intros u p. by rewrite Ht, (reachable_via_reach O s rf r u (conj Hb Hc)).
Qed.

(** prune() without relationship leaves no dangling reference and keeps all
    links bidirectional. *)
Theorem C16_prune_no_dangling O s r fuel s' e :
  bidirectional O s -> closed s -> root s = Some r -> r ∈ reg s ->
  (size (reg s) < fuel)%nat ->
  prune O fuel s None = Some (s', e) ->
  e = None /\ bidirectional O s' /\ closed s' /\
  forall a q b, connected s' a q b -> a ∈ reg s' /\ b ∈ reg s'.
Proof.
  intros Hb Hc Hro Hr Hf Hp.
  destruct (C16_prune_exact O s None r fuel Hb Hc Hro Hr Hf) as (s1 & Hp1 & _ & Hreg & Ht).
  rewrite Hp in Hp1. simplify_eq. split; [done|].
  assert (Hrel : forall a q b, connected s a q b -> reachable_via O s None r a -> reachable_via O s None r b).
  { intros a q b Hl Ha. eapply rv_step; [done|]. exists q. done. }
  assert (Hl : forall a q b, connected s1 a q b <-> connected s a q b /\ reachable_via O s None r a).
  { intros a q b. unfold connected. apply Ht. }
  split; [|split].
  - intros a q b. rewrite !Hl. split.
    + intros [H1 H2]. split; [by apply Hb in H1|]. by eapply Hrel.
    + intros [H1 H2]. split; [by apply Hb|]. eapply Hrel; done.
  - intros u p Hp'. apply Ht in Hp' as [_ Hp']. by apply Hreg.
  - intros a q b Hab. apply Hl in Hab as [H1 H2]. rewrite !Hreg. split; [done|]. by eapply Hrel.
Qed.

(** With a specific relationship dangling references can be left behind. *)
Theorem C16_refuted_prune_rel_dangling :
  exists s s', reachable exO s /\ prune exO 10 s (Some 1) = Some (s', None) /\
    connected s' 11 5 13 /\ 13 ∉ reg s'.
Proof.
  set (s := run exO [Create 11 3 []; Create 12 4 []; Create 13 4 [];
                     Add 11 1 [12]; Add 11 5 [13]]).
  exists s.
  destruct (opt_ok (prune exO 10 s (Some 1))
    (fun s' => bool_decide ((11, TLink 5 13) ∈ gr s') && bool_decide (13 ∉ reg s')))
    as (s' & Hp & Hb); [by vm_compute|].
  apply andb_true_iff in Hb as [H1 H2].
  apply bool_decide_eq_true in H1. apply bool_decide_eq_true in H2.
  assert (Hr : reachable exO s) by (apply run_reachable; by vm_compute).
  exists s'. exact (conj Hr (conj Hp (conj H1 H2))).
Qed.
Example C16_example :
  exists s', prune exO 10 (run exO (exH ++ [Create 14 3 []; Create 15 3 []; Add 14 1 [15]])) None
             = Some (s', None) /\ bool_decide (reg s' = {[11; 12; 13]}) = true.
Proof. apply (opt_ok _ (fun s' => bool_decide (reg s' = {[11; 12; 13]}))). by vm_compute. Qed.

(** ** C17 *)

(** find_cuds_object(criterion, root, rel, find_all=True): exactly the matching
    reachable objects, once each. *)
Theorem C17_find_all_exact O s rf crit root fuel :
  bidirectional O s -> closed s -> root ∈ reg s -> (size (reg s) < fuel)%nat ->
  exists visited l,
    find_cuds_object (iter_nbrs O s rf) fuel crit true None 0 root ∅
      = Some (visited, FAll l) /\
    NoDup l /\ forall x, x ∈ l <-> reachable_via O s rf root x /\ crit x = true.
Proof.
  intros Hb Hc Hr Hf. pose proof (conj Hb Hc) as Hinv.
  destruct (find_spec (iter_nbrs O s rf) (reg s) crit true None (fun _ => 0%nat) true)
    with (fuel := fuel) (root := root) (v := ∅ : gset uid) (depth := 0%nat)
    as (v' & r & He & _ & Hfd).
  { right. by left. }
  { by apply iter_nbrs_closed. }
  { done. } { apply not_elem_of_empty. }
  { assert (size (reg s ∖ ∅) = size (reg s)) as ->; [|done]. f_equal. set_solver. }
  { by left. }
  destruct Hfd as [_ Hroot Hre Hres]. destruct r as [l|[x|]]; [|by destruct Hres|by destruct Hres].
  destruct Hres as (_ & Hnd & Hl & Hcl).
  exists v', l. split; [done|]. split; [done|]. intros x. rewrite Hl.
  rewrite (reachable_via_reach O s rf root x Hinv). split.
  - intros (Hx & _ & Hcx). split; [|done]. apply reach_reach_n.
    destruct (Hre x Hx) as (n & Hn & _); [apply not_elem_of_empty|eauto].
  - intros [Hx Hcx]. split; [|split; [apply not_elem_of_empty|done]]. clear Hcx.
    induction Hx as [|y z _ IH Hz]; [done|].
    apply (Hcl y); [done|apply not_elem_of_empty|by split|done].
Qed.

(** find_all=False: one of them, or None exactly if there is none. *)
Theorem C17_find_first O s rf crit root fuel :
  bidirectional O s -> closed s -> root ∈ reg s -> (size (reg s) < fuel)%nat ->
  exists visited res,
    find_cuds_object (iter_nbrs O s rf) fuel crit false None 0 root ∅
      = Some (visited, FOne res) /\
    match res with
    | Some x => reachable_via O s rf root x /\ crit x = true
    | None => forall x, reachable_via O s rf root x -> crit x = false
    end.
Proof.
  intros Hb Hc Hr Hf. pose proof (conj Hb Hc) as Hinv.
  destruct (find_spec (iter_nbrs O s rf) (reg s) crit false None (fun _ => 0%nat) true)
    with (fuel := fuel) (root := root) (v := ∅ : gset uid) (depth := 0%nat)
    as (v' & r & He & _ & Hfd).
  { right. by left. }
  { by apply iter_nbrs_closed. }
  { done. } { apply not_elem_of_empty. }
  { assert (size (reg s ∖ ∅) = size (reg s)) as ->; [|done]. f_equal. set_solver. }
  { by left. }
  destruct Hfd as [_ Hroot Hre Hres]. destruct r as [l|res]; [by destruct Hres|].
  exists v', res. split; [done|]. destruct res as [x|].
  - destruct Hres as (_ & Hx & _ & Hcx). split; [|done].
    apply (reachable_via_reach O s rf root x Hinv), reach_reach_n.
    destruct (Hre x Hx) as (n & Hn & _); [apply not_elem_of_empty|eauto].
  - destruct Hres as (_ & Hno & Hcl). intros x Hx.
    apply (reachable_via_reach O s rf root x Hinv) in Hx.
    apply Hno; [|apply not_elem_of_empty].
    induction Hx as [|y z _ IH Hz]; [done|].
    apply (Hcl y); [done|apply not_elem_of_empty|by split|done].
Qed.

(** find_cuds_object_by_uid (simple_search.py:55-75): finds u iff reachable. *)
Theorem C17_find_by_uid O s rf u root fuel :
  bidirectional O s -> closed s -> root ∈ reg s -> (size (reg s) < fuel)%nat ->
  exists visited res,
    find_cuds_object (iter_nbrs O s rf) fuel (fun x => bool_decide (x = u)) false None 0 root ∅
      = Some (visited, FOne res) /\
    (res = Some u <-> reachable_via O s rf root u) /\ (res = Some u \/ res = None).
Proof.
  intros Hb Hc Hr Hf.
  destruct (C17_find_first O s rf (fun x => bool_decide (x = u)) root fuel Hb Hc Hr Hf)
    as (v' & res & He & Hres).
  exists v', res. split; [done|]. destruct res as [x|].
  - destruct Hres as [Hx Hcx]. apply bool_decide_eq_true in Hcx as ->. split; [done|by left].
  - split; [|by right]. split; [done|]. intros Hx. specialize (Hres u Hx).
    by apply bool_decide_eq_false in Hres.
Qed.

(** With max_depth = d, every returned object is at most d steps away, and if the
    graph below root is graded (all paths to an object have the same length, for
    example a tree) all objects within d steps are found. *)
Theorem C17_max_depth_sound nbrs (U : gset uid) crit root d fuel :
  (forall x y, x ∈ U -> y ∈ nbrs x -> y ∈ U) -> root ∈ U -> (size U < fuel)%nat ->
  exists visited l,
    find_cuds_object nbrs fuel crit true (Some d) 0 root ∅ = Some (visited, FAll l) /\
    NoDup l /\
    forall x, x ∈ l -> crit x = true /\ exists n, (n <= d)%nat /\ reach_n nbrs root n x.
Proof.
  intros HU Hr Hf.
  destruct (find_spec nbrs U crit true (Some d) (fun _ => 0%nat) false)
    with (fuel := fuel) (root := root) (v := ∅ : gset uid) (depth := 0%nat)
    as (v' & r & He & _ & Hfd).
  { by left. } { done. } { done. } { apply not_elem_of_empty. }
  { assert (size (U ∖ ∅) = size U) as ->; [|done]. f_equal. set_solver. }
  { done. }
  destruct Hfd as [_ Hroot Hre Hres]. destruct r as [l|[x|]]; [|by destruct Hres|by destruct Hres].
  destruct Hres as (_ & Hnd & Hl & _). exists v', l. split; [done|]. split; [done|].
  intros x Hx. apply Hl in Hx as (Hx & Hn & Hcx). split; [done|].
  destruct (Hre x Hx Hn) as (n & Hn1 & Hn2). exists n. split; [|done].
  specialize (Hn2 d eq_refl). lia.
Qed.
Theorem C17_max_depth_graded_partial nbrs (U : gset uid) (dep : uid -> nat) crit root d fuel :
  (forall x y, x ∈ U -> y ∈ nbrs x -> y ∈ U) -> root ∈ U -> (size U < fuel)%nat ->
  dep root = 0%nat -> (forall x y, y ∈ nbrs x -> dep y = S (dep x)) ->
  exists visited l,
    find_cuds_object nbrs fuel crit true (Some d) 0 root ∅ = Some (visited, FAll l) /\
    NoDup l /\
    forall x, x ∈ l <-> crit x = true /\ exists n, (n <= d)%nat /\ reach_n nbrs root n x.
Proof.
  intros HU Hr Hf Hd0 Hdep.
  destruct (find_spec nbrs U crit true (Some d) dep true)
    with (fuel := fuel) (root := root) (v := ∅ : gset uid) (depth := 0%nat)
    as (v' & r & He & _ & Hfd).
  { right. by right. } { done. } { done. } { apply not_elem_of_empty. }
  { assert (size (U ∖ ∅) = size U) as ->; [|done]. f_equal. set_solver. }
  { by right. }
  destruct Hfd as [_ Hroot Hre Hres]. destruct r as [l|[x|]]; [|by destruct Hres|by destruct Hres].
  destruct Hres as (_ & Hnd & Hl & Hcl). exists v', l. split; [done|]. split; [done|].
  assert (Hdn : forall n x, reach_n nbrs root n x -> dep x = n).
  { induction 1 as [|n y z _ IH Hz]; [done|]. rewrite (Hdep y z Hz). congruence. }
  intros x. split.
  - intros Hx. apply Hl in Hx as (Hx & Hn & Hcx). split; [done|].
    destruct (Hre x Hx Hn) as (n & Hn1 & Hn2). exists n. split; [|done].
    specialize (Hn2 d eq_refl). lia.
  - intros (Hcx & n & Hle & Hn). apply Hl. split; [|split; [apply not_elem_of_empty|done]].
    clear Hcx. revert Hle. induction Hn as [|n y z Hy IH Hz]; intros Hle; [done|].
    apply (Hcl y); [apply IH; lia|apply not_elem_of_empty| |done].
    split; [done|]. intros d' [= <-]. rewrite (Hdn n y Hy). lia.
Qed.
(** A depth that no path without repetitions exceeds is the same as none. *)
Lemma find_deep nbrs (U : gset uid) crit fa d :
  (forall x y, x ∈ U -> y ∈ nbrs x -> y ∈ U) ->
  forall fuel root v depth, root ∈ U -> root ∉ v -> (size (U ∖ v) < fuel)%nat ->
    (depth + size (U ∖ v) <= S d)%nat ->
    find_cuds_object nbrs fuel crit fa (Some d) depth root v = find_cuds_object nbrs fuel crit fa None depth root v.
Proof.
  intros HU. induction fuel as [|fuel IH]; intros root v depth HrU Hrv Hf Hd; [lia|].
  cbn [find_cuds_object]. destruct (crit root && negb fa); [done|].
  set (v1 := v ∪ {[root]}). set (out0 := if crit root then [root] else []). clearbody out0.
  assert (Hsz : forall w, v1 ⊆ w -> (size (U ∖ w) < size (U ∖ v))%nat).
  { intros w Hw. apply subset_size. split.
    - intros x. rewrite !elem_of_difference. intros [? Hx]. split; [done|]. intros Hxv. apply Hx, Hw. unfold v1. by apply elem_of_union_l.
    - intros Hss. specialize (Hss root). rewrite !elem_of_difference in Hss. destruct (Hss (conj HrU Hrv)) as [_ Hn].
      apply Hn, Hw. unfold v1. apply elem_of_union_r. by apply elem_of_singleton. }
  case_bool_decide as Hdd.
  - assert (Hin : forall sub, sub ∈ nbrs root -> sub ∈ U) by (intros sub Hs; by eapply HU).
    revert Hin. assert (Hw : v1 ⊆ v1) by done. revert Hw. generalize v1 at 2 3 4. intros w. revert w out0.
    induction (nbrs root) as [|sub subs IHs]; intros w out0 Hw Hin; [done|].
    destruct (decide (sub ∈ w)) as [Hsw|Hsw]; [apply IHs; [done|]; intros y Hy; apply Hin; by right|].
    assert (HsU : sub ∈ U) by (apply Hin; left). specialize (Hsz w Hw).
    rewrite (IH sub w (S depth)); [|done|done|lia|lia].
    destruct (find_spec nbrs U crit fa None (fun _ => 0%nat) false) with (fuel := fuel) (root := sub) (v := w) (depth := S depth)
      as (w' & r & He & _ & Hfd); [by left|done|done|done|lia|done|].
    rewrite He. assert (Hw' : v1 ⊆ w') by (etrans; [exact Hw | exact (f_mono _ _ _ _ _ _ _ _ _ _ Hfd)]).
    destruct r as [l|[x|]]; [|done|]; (apply IHs; [done|]; intros y Hy; apply Hin; by right).
  - (* everything has been visited *)
    assert (Hall : forall y, y ∈ nbrs root -> y ∈ v1).
    { intros y Hy. destruct (decide (y ∈ v1)) as [|Hn]; [done|exfalso]. specialize (Hsz v1 ltac:(done)).
      assert (0 < size (U ∖ v1))%nat; [|lia].
      apply Nat.neq_0_lt_0. intros Hz. apply size_empty_inv in Hz. specialize (Hz y). rewrite elem_of_difference in Hz.
      apply (not_elem_of_empty (C := gset uid) y). apply Hz. split; [by eapply HU | done]. }
    clear -Hall. revert Hall. induction (nbrs root) as [|sub subs IHs]; intros Hall; [done|].
    destruct (decide (sub ∈ v1)) as [_|Hn]; [|exfalso; apply Hn, Hall; left]. apply IHs. intros y Hy. apply Hall. by right.
Qed.

(** With max_depth at least the number of objects less one, exactly the matching reachable objects, as
    without a limit. *)
Theorem C17_max_depth_enough O s rf crit root d fuel :
  bidirectional O s -> closed s -> root ∈ reg s -> (size (reg s) < fuel)%nat -> (size (reg s) <= S d)%nat ->
  exists visited l,
    find_cuds_object (iter_nbrs O s rf) fuel crit true (Some d) 0 root ∅ = Some (visited, FAll l) /\
    NoDup l /\ forall x, x ∈ l <-> reachable_via O s rf root x /\ crit x = true.
Proof.
  intros Hb Hc Hr Hf Hd. destruct (C17_find_all_exact O s rf crit root fuel Hb Hc Hr Hf) as (v & l & He & Hl).
  exists v, l. split; [|done]. rewrite <- He.
  assert (Hsz : size (reg s ∖ ∅) = size (reg s)) by (f_equal; set_solver).
  apply (find_deep _ (reg s)); [|done|apply not_elem_of_empty|by rewrite Hsz|by rewrite Hsz].
  by apply iter_nbrs_closed.
Qed.

(** Also without find_all the object found is at most d steps away. *)
Theorem C17_max_depth_first_sound nbrs (U : gset uid) crit root d fuel :
  (forall x y, x ∈ U -> y ∈ nbrs x -> y ∈ U) -> root ∈ U -> (size U < fuel)%nat ->
  exists visited res,
    find_cuds_object nbrs fuel crit false (Some d) 0 root ∅ = Some (visited, FOne res) /\
    forall x, res = Some x -> crit x = true /\ exists n, (n <= d)%nat /\ reach_n nbrs root n x.
Proof.
  intros HU Hr Hf.
  destruct (find_spec nbrs U crit false (Some d) (fun _ => 0%nat) false)
    with (fuel := fuel) (root := root) (v := ∅ : gset uid) (depth := 0%nat)
    as (v' & r & He & _ & Hfd).
  { by left. } { done. } { done. } { apply not_elem_of_empty. }
  { assert (size (U ∖ ∅) = size U) as ->; [|done]. f_equal. set_solver. }
  { done. }
  destruct Hfd as [_ Hroot Hre Hres]. destruct r as [l|res]; [by destruct Hres|].
  exists v', res. split; [done|]. intros x ->. destruct Hres as (_ & Hx & Hn & Hcx). split; [done|].
  destruct (Hre x Hx Hn) as (n & Hn1 & Hn2). exists n. split; [|done].
  specialize (Hn2 d eq_refl). lia.
Qed.

(** With a limit of at least one, the matching objects among root and its direct neighbours are
    always found. *)
Theorem C17_max_depth_neighbours nbrs (U : gset uid) crit root d fuel visited l :
  (forall x y, x ∈ U -> y ∈ nbrs x -> y ∈ U) -> root ∈ U -> (size U < fuel)%nat -> (0 < d)%nat ->
  find_cuds_object nbrs fuel crit true (Some d) 0 root ∅ = Some (visited, FAll l) ->
  forall x, x = root \/ x ∈ nbrs root -> crit x = true -> x ∈ l.
Proof.
  intros HU Hr Hf Hd He x Hx Hcx.
  assert (Hsz : size (U ∖ ∅) = size U) by (f_equal; set_solver).
  destruct (find_spec nbrs U crit true (Some d) (fun _ => 0%nat) false)
    with (fuel := fuel) (root := root) (v := ∅ : gset uid) (depth := 0%nat)
    as (v' & r & He' & _ & Hfd); [by left|done|done|apply not_elem_of_empty|by rewrite Hsz|done|].
  rewrite He in He'. injection He' as <- <-. destruct Hfd as [_ Hroot _ (_ & _ & Hl & _)]. apply Hl.
  split; [|split; [apply not_elem_of_empty | done]]. destruct Hx as [-> |Hx]; [done|].
  clear Hl Hcx Hroot. destruct fuel as [|fuel]; [lia|]. cbn [find_cuds_object] in He.
  rewrite andb_false_r in He. rewrite bool_decide_eq_true_2 in He by done.
  set (v1 := ∅ ∪ {[root]}) in He. set (out0 := if crit root then [root] else []) in He. clearbody out0.
  assert (Hin : forall sub, sub ∈ nbrs root -> sub ∈ U) by (intros sub Hs; by eapply HU).
  assert (H1 : forall w, v1 ⊆ w -> (size (U ∖ w) < fuel)%nat).
  { intros w Hw. assert (size (U ∖ w) < size U)%nat; [|lia]. apply subset_size. split; [set_solver|].
    intros Hss. specialize (Hss root Hr). apply elem_of_difference in Hss as [_ Hn]. apply Hn, Hw. unfold v1. set_solver. }
  assert (Hgen : forall subs w out, (forall y, y ∈ subs -> y ∈ U) -> v1 ⊆ w ->
    (fix loop (subs : list uid) (visited : gset uid) (output : list uid) :=
             match subs with
             | [] => Some (visited, FAll output)
             | sub :: subs =>
                 if decide (sub ∈ visited) then loop subs visited output
                 else match find_cuds_object nbrs fuel crit true (Some d) 1 sub visited with
                      | None => None
                      | Some (visited', FOne (Some x)) => Some (visited', FOne (Some x))
                      | Some (visited', FOne None) => loop subs visited' output
                      | Some (visited', FAll l) => loop subs visited' (output ++ l)
                      end
             end) subs w out = Some (visited, FAll l) -> w ⊆ visited /\ forall y, y ∈ subs -> y ∈ visited).
  { clear He Hx Hin. induction subs as [|sub subs IHs]; intros w out Hin Hw Hl.
    - injection Hl as <- _. split; [done|]. intros y Hy. by apply elem_of_nil in Hy.
    - destruct (decide (sub ∈ w)) as [Hsw|Hsw].
      + destruct (IHs w out) as [Hm Hs]; [intros y Hy; apply Hin; by right|done|done|]. split; [done|].
        intros y Hy. apply elem_of_cons in Hy as [-> |Hy]; [by apply Hm | by apply Hs].
      + destruct (find_spec nbrs U crit true (Some d) (fun _ => 0%nat) false) with (fuel := fuel) (root := sub) (v := w) (depth := 1%nat)
          as (w' & r & He & _ & Hfd); [by left|done|apply Hin; left|done|by apply H1|done|].
        rewrite He in Hl. destruct Hfd as [Hmono Hsub _ Hres].
        destruct r as [l2|o]; [|by destruct o as [?|]; destruct Hres].
        destruct (IHs w' (out ++ l2)) as [Hm Hs]; [intros y Hy; apply Hin; by right|by etrans|done|].
        split; [by etrans|]. intros y Hy. apply elem_of_cons in Hy as [-> |Hy]; [by apply Hm | by apply Hs]. }
  destruct (Hgen _ _ _ Hin ltac:(done) He) as [_ Hs]. by apply Hs.
Qed.
(** In general it misses objects: 1 -> 2,3; 2 -> 3; 3 -> 4.  Object 4 is two
    steps away from 1 but max_depth=2 does not find it, because 3 was first
    visited at depth 2. *)
Definition ex_diamond (u : uid) : list uid :=
  if decide (u = 1) then [2; 3] else if decide (u = 2) then [3]
  else if decide (u = 3) then [4] else [].
Theorem C17_refuted_max_depth :
  reach_n ex_diamond 1 2 4 /\
  snd <$> find_cuds_object ex_diamond 10 (fun x => bool_decide (x = 4)) true (Some 2%nat) 0 1 ∅
            = Some (FAll []).
Proof.
  split.
  - eapply (reach_n_S _ _ 1 3); [eapply (reach_n_S _ _ 0 1)|]; [constructor| |];
      apply (bool_decide_unpack _); by vm_compute.
  - by vm_compute.
Qed.
Example C17_example :
  snd <$> find_cuds_object (iter_nbrs exO exS (Some 0)) 10
    (fun x => class_ok exO (gr exS) (Some 4) x) true None 0 11 ∅ = Some (FAll [12; 13]).
Proof. by vm_compute. Qed.

(** ** C18 *)

Theorem C18_subtree_exact O s rf root skip fuel :
  bidirectional O s -> closed s -> root ∈ reg s -> (size (reg s) < fuel)%nat ->
  exists S, get_subtree (iter_nbrs O s rf) fuel root skip = Some S /\
    forall x, x ∈ S <-> reach_avoid (iter_nbrs O s rf) skip root x.
Proof.
  intros Hb Hc Hr Hf. apply (get_subtree_exact _ (reg s)); [|done|done].
  by apply iter_nbrs_closed.
Qed.
Theorem C18_subtree_no_skip O s rf root fuel :
  bidirectional O s -> closed s -> root ∈ reg s -> (size (reg s) < fuel)%nat ->
  exists S, get_subtree (iter_nbrs O s rf) fuel root ∅ = Some S /\
    forall x, x ∈ S <-> reachable_via O s rf root x.
Proof.
  intros Hb Hc Hr Hf. destruct (C18_subtree_exact O s rf root ∅ fuel Hb Hc Hr Hf) as (S & HS & Hx).
  exists S. split; [done|]. intros x.
  by rewrite Hx, reach_avoid_empty, (reachable_via_reach O s rf root x (conj Hb Hc)).
Qed.
Example C18_example :
  exists S, get_subtree (iter_nbrs exO exS (Some 0)) 10 11 {[13]} = Some S /\
            bool_decide (S = {[11; 12]}) = true.
Proof. apply (opt_some _ (fun S => bool_decide (S = {[11; 12]}))). by vm_compute. Qed.

Print Assumptions C16_prune_exact.
Print Assumptions C17_find_all_exact.
Print Assumptions C17_find_first.
Print Assumptions C17_max_depth_graded_partial.
Print Assumptions C17_max_depth_enough.
Print Assumptions C17_max_depth_first_sound.
Print Assumptions C17_max_depth_neighbours.
Print Assumptions C18_subtree_exact.
