(** Searching with max_depth (osp/core/utils/simple_search.py:4-48, model:
    [find_cuds_object] in Traverse.v): the tree of the depth-first walk, and that
    an object is visited if no path without repetitions to it is longer than the
    limit.  Proofs only. *)
From stdpp Require Import base sets list gmap.
From Verif Require Import Prelude Cuds Traverse.

Section Walk.
  Context (nbrs : uid -> list uid).

  (** [f x] is the path on which x was first visited, x first. *)
  Definition Tree (r0 : uid) (v : gset uid) (f : uid -> list uid) : Prop :=
    forall x, x ∈ v -> (f x = [x] /\ x = r0) \/ exists z, z ∈ v /\ x ∈ nbrs z /\ f x = x :: f z /\ x ∉ f z.

  Lemma tree_in r0 v f x y : Tree r0 v f -> x ∈ v -> y ∈ f x -> y ∈ v /\ exists l, f x = l ++ f y.
  Proof.
    intros Ht. remember (length (f x)) as n eqn:Hn. revert x Hn.
    induction n as [n IH] using lt_wf_ind. intros x Hn Hx Hy.
    destruct (Ht x Hx) as [[E _]|(z & Hz & _ & E & _)].
    - rewrite E in Hy. apply elem_of_list_singleton in Hy as ->. split; [done|]. by exists [].
    - rewrite E in Hy. apply elem_of_cons in Hy as [->|Hy]; [split; [done|]; by exists []|].
      destruct (IH (length (f z))) with (x := z) as [Hyv [l Hl]]; [rewrite Hn, E; cbn; lia|done|done|done|].
      split; [done|]. exists (x :: l). by rewrite E, Hl.
  Qed.
  Lemma tree_head r0 v f x : Tree r0 v f -> x ∈ v -> exists l, f x = x :: l.
  Proof. intros Ht Hx. destruct (Ht x Hx) as [[E _]|(z & _ & _ & E & _)]; eauto. Qed.

  (** What a call leaves behind. *)
  Definition walked (r0 : uid) (d : nat) (v1 v v' : gset uid) (f f' : uid -> list uid) : Prop :=
    (forall x, x ∈ v1 -> f' x = f x) /\ Tree r0 v' f' /\ v1 ⊆ v' /\
    (forall x, x ∈ v' -> x ∉ v -> (length (f' x) <= S d)%nat /\
       ((length (f' x) <= d)%nat -> forall y, y ∈ nbrs x -> y ∈ v')).

  Lemma find_walk r0 crit fa d fuel : forall depth root v f v' r,
    find_cuds_object nbrs fuel crit fa (Some d) depth root v = Some (v', r) ->
    is_some_one r = false -> root ∉ v -> (depth <= d)%nat ->
    Tree r0 (v ∪ {[root]}) f -> length (f root) = S depth ->
    exists f', walked r0 d (v ∪ {[root]}) v v' f f'.
  Proof.
    induction fuel as [|fuel IH]; intros depth root v f v' r He Hr Hrv Hd Ht Hl; [done|].
    cbn [find_cuds_object] in He.
    destruct (crit root && negb fa) eqn:Ec.
    { injection He as <- <-. done. }
    set (v1 := v ∪ {[root]}) in *. set (out0 := if crit root then [root] else []) in He. clearbody out0. clear Ec.
    case_bool_decide as Hdd.
    - assert (forall subs w out fw,
        (forall x, x ∈ v1 -> fw x = f x) -> Tree r0 w fw -> v1 ⊆ w ->
        (forall x, x ∈ w -> x ∉ v1 -> (length (fw x) <= S d)%nat /\
           ((length (fw x) <= d)%nat -> forall y, y ∈ nbrs x -> y ∈ w)) ->
        (forall y, y ∈ subs -> y ∈ nbrs root) ->
        (fix loop (subs : list uid) (visited : gset uid) (output : list uid) :=
             match subs with
             | [] => Some (visited, if fa then FAll output else FOne None)
             | sub :: subs =>
                 if decide (sub ∈ visited) then loop subs visited output
                 else match find_cuds_object nbrs fuel crit fa (Some d) (S depth) sub visited with
                      | None => None
                      | Some (visited', FOne (Some x)) => Some (visited', FOne (Some x))
                      | Some (visited', FOne None) => loop subs visited' output
                      | Some (visited', FAll l) => loop subs visited' (output ++ l)
                      end
             end) subs w out = Some (v', r) ->
        exists f', (forall x, x ∈ v1 -> f' x = f x) /\ Tree r0 v' f' /\ w ⊆ v' /\
          (forall x, x ∈ v' -> x ∉ v1 -> (length (f' x) <= S d)%nat /\
             ((length (f' x) <= d)%nat -> forall y, y ∈ nbrs x -> y ∈ v')) /\
          (forall y, y ∈ subs -> y ∈ v')) as Hloop.
      { induction subs as [|sub subs IHs]; intros w out fw Hfw Htw Hw Hcl Hin Hlo.
        - injection Hlo as <- _. exists fw. repeat split; try done; try (by apply Hcl).
          intros y Hy. by apply elem_of_nil in Hy.
        - destruct (decide (sub ∈ w)) as [Hsw|Hsw].
          + destruct (IHs w out fw) as (f' & H1 & H2 & H3 & H4 & H5); [done..|intros y Hy; apply Hin; by right|done|].
            exists f'. repeat split; try done; try (by apply H4).
            intros y [->|Hy]%elem_of_cons; [by apply H3 | by apply H5].
          + destruct (find_cuds_object nbrs fuel crit fa (Some d) (S depth) sub w) as [[w' r']|] eqn:E; [|done].
            assert (is_some_one r' = false) as Hr'.
            { destruct r' as [l|[x|]]; [done| |done]. injection Hlo as <- <-. done. }
            assert (Hroot : root ∈ w) by (apply Hw; unfold v1; apply elem_of_union_r; by apply elem_of_singleton).
            set (g := fun x => if decide (x = sub) then sub :: fw root else fw x).
            assert (Hg : forall x, x ∈ w -> g x = fw x).
            { intros x Hx. unfold g. destruct (decide (x = sub)) as [->|]; [done|done]. }
            assert (Htg : Tree r0 (w ∪ {[sub]}) g).
            { intros x Hx. apply elem_of_union in Hx as [Hx|Hx%elem_of_singleton].
              - rewrite (Hg x Hx). destruct (Htw x Hx) as [E'|(z & Hz & Hn & E' & Hni)]; [by left|right].
                exists z. rewrite (Hg z Hz). repeat split; try done. by apply elem_of_union_l.
              - subst x. right. exists root. rewrite (Hg root Hroot). unfold g at 1. rewrite decide_True by done.
                split; [by apply elem_of_union_l|]. split; [apply Hin; left|]. split; [done|].
                intros Hsub. apply Hsw. by apply (tree_in r0 w fw root sub Htw Hroot Hsub). }
            assert (Hlg : length (g sub) = S (S depth)).
            { unfold g. rewrite decide_True by done. cbn. rewrite Hfw; [by rewrite Hl|].
              unfold v1. apply elem_of_union_r. by apply elem_of_singleton. }
            destruct (IH (S depth) sub w g w' r' E Hr' Hsw ltac:(lia) Htg Hlg) as (fw' & G1 & G2 & G3 & G4).
            assert (Hww : w ⊆ w') by (etrans; [apply union_subseteq_l | exact G3]).
            assert (Hnext : exists out', (fix loop (subs : list uid) (visited : gset uid) (output : list uid) :=
             match subs with
             | [] => Some (visited, if fa then FAll output else FOne None)
             | sub :: subs =>
                 if decide (sub ∈ visited) then loop subs visited output
                 else match find_cuds_object nbrs fuel crit fa (Some d) (S depth) sub visited with
                      | None => None
                      | Some (visited', FOne (Some x)) => Some (visited', FOne (Some x))
                      | Some (visited', FOne None) => loop subs visited' output
                      | Some (visited', FAll l) => loop subs visited' (output ++ l)
                      end
             end) subs w' out' = Some (v', r)).
            { destruct r' as [l|[x|]]; [by exists (out ++ l)|done|by exists out]. }
            destruct Hnext as [out' Hnext].
            destruct (IHs w' out' fw') as (f' & H1 & H2 & H3 & H4 & H5).
            * intros x Hx. rewrite G1 by (apply elem_of_union_l; by apply Hw). rewrite (Hg x) by (by apply Hw). by apply Hfw.
            * done.
            * by etrans.
            * intros x Hx Hx1. destruct (decide (x ∈ w)) as [Hxw|Hxw]; [|by apply G4].
              rewrite G1 by (by apply elem_of_union_l). rewrite (Hg x Hxw).
              destruct (Hcl x Hxw Hx1) as [Ha Hb]. split; [done|]. intros Hle y Hy. by apply Hww, Hb.
            * intros y Hy. apply Hin. by right.
            * exact Hnext.
            * exists f'. repeat split; try done; try (by apply H4); [by etrans|].
              intros y [->|Hy]%elem_of_cons; [|by apply H5]. apply H3, G3, elem_of_union_r. by apply elem_of_singleton. }
      destruct (Hloop (nbrs root) v1 out0 f) as (f' & H1 & H2 & H3 & H4 & H5); [done|done|done| |done|exact He|].
      { intros x Hx Hnx. done. }
      exists f'. split; [done|]. split; [done|]. split; [done|]. intros x Hx Hxv.
      destruct (decide (x ∈ v1)) as [Hx1|Hx1]; [|by apply H4].
      unfold v1 in Hx1. apply elem_of_union in Hx1 as [?|Hx1%elem_of_singleton]; [done|]. subst x.
      rewrite H1 by (unfold v1; apply elem_of_union_r; by apply elem_of_singleton). rewrite Hl.
      split; [lia|]. intros _. exact H5.
    - injection He as <- <-. exists f. split; [done|]. split; [done|]. split; [done|].
      intros x Hx Hxv. unfold v1 in Hx. apply elem_of_union in Hx as [?|Hx%elem_of_singleton]; [done|]. subst x.
      rewrite Hl. split; [lia|]. intros Hle. lia.
  Qed.

  (** Paths, as lists of objects after the first. *)
  Fixpoint is_path (R : uid -> uid -> Prop) (a : uid) (l : list uid) : Prop :=
    match l with [] => True | b :: l => R a b /\ is_path R b l end.

  Lemma is_path_app R a l1 l2 : is_path R a (l1 ++ l2) <-> is_path R a l1 /\ is_path R (default a (last l1)) l2.
  Proof.
    revert a. induction l1 as [|b l1 IH]; intros a; cbn; [tauto|]. rewrite IH.
    destruct l1 as [|c l1]; cbn [last]; [cbn; tauto|].
    destruct (last (c :: l1)) eqn:E; [cbn; tauto|]. by apply last_None in E.
  Qed.

  Notation Nb := (fun a b => b ∈ nbrs a).

  (** The path of the tree, from the start. *)
  Lemma tree_path r0 v f : Tree r0 v f -> forall x, x ∈ v ->
    exists l, reverse (f x) = r0 :: l /\ is_path Nb r0 l /\ NoDup (r0 :: l) /\ last (r0 :: l) = Some x.
  Proof.
    intros Ht x. remember (length (f x)) as n eqn:Hn. revert x Hn.
    induction n as [n IH] using lt_wf_ind. intros x Hn Hx.
    destruct (Ht x Hx) as [[E ->]|(z & Hz & Hxz & E & Hni)].
    - exists []. rewrite E. repeat split; try done. apply NoDup_singleton.
    - destruct (IH (length (f z))) with (x := z) as (l & H1 & H2 & H3 & H4); [rewrite Hn, E; cbn; lia|done|done|].
      exists (l ++ [x]). rewrite E, reverse_cons, H1. split; [done|]. split.
      { apply is_path_app. split; [done|]. cbn. split; [|done].
        destruct l as [|b l]; [cbn in H4; injection H4 as ->; done|]. cbn [last] in H4. cbn [last]. by rewrite H4. }
      split.
      { change (r0 :: l ++ [x]) with ((r0 :: l) ++ [x]). apply NoDup_app. split; [done|]. split; [|apply NoDup_singleton].
        intros y Hy ->%elem_of_list_singleton. apply Hni. apply elem_of_reverse. by rewrite H1. }
      change (r0 :: l ++ [x]) with ((r0 :: l) ++ [x]). by rewrite last_snoc.
  Qed.

  Lemma last_in (P : uid -> Prop) `{forall x, Decision (P x)} (t : list uid) :
    (exists x, x ∈ t /\ P x) -> exists t1 y t2, t = t1 ++ y :: t2 /\ P y /\ forall z, z ∈ t2 -> ~ P z.
  Proof.
    induction t as [|a t IH]; intros (x & Hx & Hp); [by apply elem_of_nil in Hx|].
    destruct (decide (Exists P t)) as [He|Hn].
    - apply Exists_exists in He. destruct (IH He) as (t1 & y & t2 & -> & Hy & Hz). by exists (a :: t1), y, t2.
    - assert (forall z, z ∈ t -> ~ P z) as Hz.
      { intros z Hz Hpz. apply Hn, Exists_exists. eauto. }
      exists [], a, t. split; [done|]. split; [|done]. apply elem_of_cons in Hx as [->|Hx]; [done|].
      exfalso. by eapply Hz.
  Qed.

  Lemma is_path_last R a t1 y t2 : is_path R a (t1 ++ y :: t2) -> is_path R y t2.
  Proof. intros [_ [_ ?]]%is_path_app. done. Qed.

  (** Along a path without repetitions that no other path to its end exceeds, the
      walk gets to the end. *)
  Lemma walk_reaches r0 d v f x :
    Tree r0 v f ->
    (forall y, y ∈ v -> (length (f y) <= d)%nat -> forall z, z ∈ nbrs y -> z ∈ v) ->
    (forall l, is_path Nb r0 l -> NoDup (r0 :: l) -> last (r0 :: l) = Some x -> (length l <= d)%nat) ->
    forall n t z, (length t <= n)%nat -> z ∈ v -> is_path Nb z t -> NoDup t -> (forall y, y ∈ t -> y ∉ f z) ->
      last (z :: t) = Some x -> x ∈ v.
  Proof.
    intros Ht Hex Hall. induction n as [|n IH]; intros t z Hn Hz Hp Hnd Hdis Hlast.
    { destruct t as [|y t]; [cbn in Hlast; congruence|cbn in Hn; lia]. }
    destruct t as [|y t]; [cbn in Hlast; congruence|].
    destruct (tree_path r0 v f Ht z Hz) as (l & H1 & H2 & H3 & H4).
    assert (Hlz : length (f z) = S (length l)) by (rewrite <- reverse_length, H1; done).
    assert (Hle : (length (l ++ y :: t) <= d)%nat).
    { apply Hall.
      - apply is_path_app. split; [done|].
        assert (default r0 (last l) = z) as ->; [|done].
        destruct l as [|b l]; [cbn in H4 |- *; congruence|]. cbn [last] in H4. by rewrite H4.
      - change (r0 :: l ++ y :: t) with ((r0 :: l) ++ y :: t). apply NoDup_app. split; [done|]. split; [|done].
        intros w Hw Hw'. apply (Hdis w Hw'). apply elem_of_reverse. by rewrite H1.
      - change (r0 :: l ++ y :: t) with ((r0 :: l) ++ y :: t). rewrite last_app.
        change (last (z :: y :: t)) with (last (y :: t)) in Hlast. by rewrite Hlast. }
    rewrite app_length in Hle. cbn in Hle.
    assert (Hy : y ∈ v) by (apply (Hex z Hz); [lia|apply Hp]).
    destruct (tree_head r0 v f y Ht Hy) as [l' Hl'].
    destruct (last_in (fun w => w ∈ f y) (y :: t)) as (t1 & w & t2 & E & Hw & Ht2).
    { exists y. split; [left|]. rewrite Hl'. left. }
    destruct (tree_in r0 v f y w Ht Hy Hw) as [Hwv [l2 Hl2]].
    apply (IH t2 w).
    - assert (length (y :: t) = length t1 + S (length t2))%nat as Hlen by (rewrite E, app_length; done). cbn in Hlen, Hn. lia.
    - done.
    - rewrite E in Hp. by eapply is_path_last.
    - rewrite E in Hnd. apply NoDup_app in Hnd as (_ & _ & Hnd). by inversion Hnd.
    - intros u Hu Hfu. apply (Ht2 u Hu). rewrite Hl2. apply elem_of_app. by right.
    - change (last (z :: y :: t)) with (last (y :: t)) in Hlast. rewrite E, last_app in Hlast.
      destruct (last (w :: t2)) eqn:El; [done|]. by apply last_None in El.
  Qed.

  (** Reachable objects have a path without repetitions. *)
  Lemma reach_simple r0 x : reach nbrs r0 x ->
    exists l, is_path Nb r0 l /\ NoDup (r0 :: l) /\ last (r0 :: l) = Some x.
  Proof.
    induction 1 as [|y z _ (l & H1 & H2 & H3) Hz].
    - exists []. repeat split. apply NoDup_singleton.
    - destruct (decide (z ∈ r0 :: l)) as [Hi|Hi].
      + apply elem_of_cons in Hi as [->|Hi]; [exists []; repeat split; apply NoDup_singleton|].
        apply elem_of_list_split in Hi as (l1 & l2 & ->).
        exists (l1 ++ [z]). change (r0 :: l1 ++ [z]) with ((r0 :: l1) ++ [z]).
        rewrite (cons_middle z l1 l2), app_assoc in H1, H2. apply is_path_app in H1 as [H1 _]. split; [done|].
        change (r0 :: (l1 ++ [z]) ++ l2) with (((r0 :: l1) ++ [z]) ++ l2) in H2.
        apply NoDup_app in H2 as [H2 _]. split; [done|]. by rewrite last_snoc.
      + exists (l ++ [z]). change (r0 :: l ++ [z]) with ((r0 :: l) ++ [z]). split; [|split].
        * apply is_path_app. split; [done|]. cbn. split; [|done].
          destruct l as [|b l]; [cbn in H3 |- *; congruence|]. cbn [last] in H3. by rewrite H3.
        * apply NoDup_app. split; [done|]. split; [|apply NoDup_singleton]. by intros w Hw ->%elem_of_list_singleton.
        * by rewrite last_snoc.
  Qed.

  Theorem find_visits crit fa d fuel root v' r x :
    find_cuds_object nbrs fuel crit fa (Some d) 0 root ∅ = Some (v', r) -> is_some_one r = false ->
    reach nbrs root x ->
    (forall l, is_path Nb root l -> NoDup (root :: l) -> last (root :: l) = Some x -> (length l <= d)%nat) ->
    x ∈ v'.
  Proof.
    intros He Hr Hx Hall.
    destruct (find_walk root crit fa d fuel 0 root ∅ (fun y => [y]) v' r He Hr) as (f & H1 & H2 & H3 & H4).
    { apply not_elem_of_empty. } { lia. }
    { intros y Hy. left. split; [done|]. apply elem_of_union in Hy as [Hy|Hy]; [by apply elem_of_empty in Hy|by apply elem_of_singleton in Hy]. }
    { done. }
    assert (Hroot : root ∈ v') by (apply H3, elem_of_union_r; by apply elem_of_singleton).
    destruct (reach_simple root x Hx) as (l & G1 & G2 & G3).
    apply (walk_reaches root d v' f x H2) with (n := length l) (t := l) (z := root); try done.
    - intros y Hy Hle. apply H4; [done|apply not_elem_of_empty|done].
    - by inversion G2.
    - intros y Hy. rewrite H1 by (apply elem_of_union_r; by apply elem_of_singleton).
      intros ->%elem_of_list_singleton. by inversion G2.
  Qed.
End Walk.
