(** C17: what a search with max_depth finds. *)
From stdpp Require Import base sets list gmap.
From Verif Require Import Prelude Cuds CudsProofs Traverse TraversePaths PropCuds PropTraverse.
Local Open Scope N_scope.

Lemma is_path_iff (R R' : uid -> uid -> Prop) : (forall a b, R a b <-> R' a b) ->
  forall l a, is_path R a l <-> is_path R' a l.
Proof. intros H. induction l as [|b l IH]; intros a; cbn; [done|]. by rewrite H, IH. Qed.

(** With max_depth = d a matching object is found if no path without repetitions from
    root to it has more than d links; without find_all then some matching object is
    returned. *)
Theorem C17_max_depth_paths O s rf crit find_all root d fuel x :
  bidirectional O s -> closed s -> root ∈ reg s -> (size (reg s) < fuel)%nat ->
  reachable_via O s rf root x -> crit x = true ->
  (forall l, is_path (related O s rf) root l -> NoDup (root :: l) -> last (root :: l) = Some x -> (length l <= d)%nat) ->
  exists visited r,
    find_cuds_object (iter_nbrs O s rf) fuel crit find_all (Some d) 0 root ∅ = Some (visited, r) /\
    match r with
    | FAll l => find_all = true /\ x ∈ l
    | FOne o => find_all = false /\ exists y, o = Some y /\ crit y = true
    end.
Proof.
  intros Hb Hc Hr Hf Hx Hcx Hall. pose proof (conj Hb Hc) as Hinv.
  destruct (find_spec (iter_nbrs O s rf) (reg s) crit find_all (Some d) (fun _ => 0%nat) false)
    with (fuel := fuel) (root := root) (v := ∅ : gset uid) (depth := 0%nat)
    as (v' & r & He & _ & Hfd).
  { by left. } { by apply iter_nbrs_closed. } { done. } { apply not_elem_of_empty. }
  { assert (size (reg s ∖ ∅) = size (reg s)) as ->; [|done]. f_equal. set_solver. } { done. }
  exists v', r. split; [done|]. destruct Hfd as [_ _ _ Hres].
  assert (is_some_one r = false -> x ∈ v') as Hv.
  { intros Hr1. apply (find_visits (iter_nbrs O s rf) crit find_all d fuel root v' r x He Hr1).
    - by apply (reachable_via_reach O s rf root x Hinv).
    - intros l Hp. apply Hall. eapply is_path_iff; [|exact Hp]. intros a b. cbn. symmetry. by apply elem_iter_nbrs. }
  destruct r as [l|[y|]].
  - destruct Hres as (-> & _ & Hl & _). split; [done|]. apply Hl. split; [by apply Hv|]. split; [apply not_elem_of_empty|done].
  - destruct Hres as (-> & _ & _ & Hcy). split; [done|]. eauto.
  - destruct Hres as (-> & Hn & _). exfalso.
    rewrite (Hn x) in Hcx; [done|by apply Hv|apply not_elem_of_empty].
Qed.

(** Reachable objects have such a path, so the condition speaks of at least one. *)
Theorem C17_paths_exist O s rf root x : bidirectional O s -> closed s ->
  reachable_via O s rf root x <->
  exists l, is_path (related O s rf) root l /\ NoDup (root :: l) /\ last (root :: l) = Some x.
Proof.
  intros Hb Hc. pose proof (conj Hb Hc) as Hinv. rewrite (reachable_via_reach O s rf root x Hinv).
  assert (forall l, is_path (related O s rf) root l <-> is_path (fun a b => b ∈ iter_nbrs O s rf a) root l) as Hp.
  { intros l. apply is_path_iff. intros a b. symmetry. by apply elem_iter_nbrs. }
  split.
  - intros Hx. destruct (reach_simple _ _ _ Hx) as (l & H1 & H2 & H3). exists l. rewrite Hp. done.
  - intros (l & H1%Hp & _ & H3). assert (forall l a, is_path (fun a b => b ∈ iter_nbrs O s rf a) a l -> reach (iter_nbrs O s rf) root a ->
      forall y, last (a :: l) = Some y -> reach (iter_nbrs O s rf) root y) as H.
    { clear. induction l as [|b l IH]; intros a; cbn [is_path]; [intros _ Ha y [= <-]; done|].
      intros [Hb Hp] Ha y Hy. apply (IH b Hp); [by eapply reach_next|done]. }
    apply (H l root H1); [constructor|done].
Qed.

(** The hypotheses are met: in this session the longest path from 11 to 13 has two
    links, and there is one of one link, along which 13 is not visited first. *)
Definition depthS : sess := run exO [Create 11 3 []; Create 12 4 []; Create 13 4 []; Add 11 1 [12; 13]; Add 12 1 [13]].
Example C17_depth_example :
  reachable exO depthS /\
  snd <$> find_cuds_object (iter_nbrs exO depthS (Some 1)) 10 (fun x => bool_decide (x = 13)) true (Some 2%nat) 0 11 ∅ = Some (FAll [13]) /\
  forall l, is_path (related exO depthS (Some 1)) 11 l -> NoDup (11 :: l) -> last (11 :: l) = Some 13 -> (length l <= 2)%nat.
Proof.
  assert (reachable exO depthS) as Hr by (apply run_reachable; by vm_compute).
  split; [done|]. split; [by vm_compute|].
  assert (forall a b, related exO depthS (Some 1) a b -> b ∈ [12; 13]) as Hrel.
  { intros a b (r & Hab & Hsub). specialize (Hsub 1 eq_refl).
    assert (forallb (fun t : triple => match t with
              | (_, TLink r b) => negb (o_sub exO r 1) || bool_decide (b ∈ [12; 13])
              | _ => true end) (elements (gr depthS)) = true) as Hf by (vm_compute; reflexivity).
    rewrite forallb_forall in Hf. specialize (Hf (a, TLink r b)).
    assert (negb (o_sub exO r 1) || bool_decide (b ∈ [12; 13]) = true) as Ho.
    { apply Hf. apply (proj1 (elem_of_list_In _ _)), (proj2 (elem_of_elements _ _)). exact Hab. }
    rewrite Hsub in Ho. cbn [negb orb] in Ho. by apply bool_decide_eq_true in Ho. }
  intros l Hp Hnd _. assert (forall b, b ∈ l -> b ∈ [12; 13]) as Hin.
  { clear Hnd. revert Hp. generalize 11. induction l as [|c l IH]; intros a Hp b Hb; [by apply elem_of_nil in Hb|].
    destruct Hp as [Hc Hp]. apply elem_of_cons in Hb as [->|Hb]; [by eapply Hrel|]. by eapply IH. }
  inversion Hnd as [|? ? _ Hl]; subst.
  change 2%nat with (length [12; 13]). apply submseteq_length, NoDup_submseteq; done.
Qed.

Print Assumptions C17_max_depth_paths.
Print Assumptions C17_paths_exist.
Print Assumptions C17_depth_example.
