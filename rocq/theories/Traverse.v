(** Graph traversals: osp/core/utils/simple_search.py:4-52 (find_cuds_object),
    osp/core/session/registry.py:52-79, 97-124 (get_subtree, _get_not_reachable),
    osp/core/session/session.py:68-79 (prune).

    Objects are identified with their uids (Cuds.__eq__ compares class and uid;
    within a session that is the uid).  [nbrs u] is the list of objects yielded
    by u.iter(rel=rel), in the order of that iteration.  Python's recursion is
    modelled with explicit fuel; the theorems show how much fuel always
    suffices (Python's own recursion limit is not modelled). *)
From stdpp Require Import base list gmap.
From Verif Require Import Prelude Cuds.

(** Reachability, the specification. *)
Inductive reach (nbrs : uid -> list uid) (x : uid) : uid -> Prop :=
| reach_refl : reach nbrs x x
| reach_next y z : reach nbrs x y -> z ∈ nbrs y -> reach nbrs x z.

(** Reachability in exactly n steps. *)
Inductive reach_n (nbrs : uid -> list uid) (x : uid) : nat -> uid -> Prop :=
| reach_n_O : reach_n nbrs x 0 x
| reach_n_S n y z : reach_n nbrs x n y -> z ∈ nbrs y -> reach_n nbrs x (S n) z.

(** Reachability without entering the set [skip]. *)
Inductive reach_avoid (nbrs : uid -> list uid) (skip : gset uid) (x : uid) : uid -> Prop :=
| ra_refl : reach_avoid nbrs skip x x
| ra_next y z : reach_avoid nbrs skip x y -> z ∈ nbrs y -> z ∉ skip ->
                reach_avoid nbrs skip x z.

(** The result of find_cuds_object: a list if find_all, else an object or None. *)
Inductive fresult := FAll (l : list uid) | FOne (x : option uid).

Section Traverse.
  Context (nbrs : uid -> list uid).

  (** simple_search.py:4-48 [find_cuds_object].  [md = None] is max_depth=inf.
      The visited set is a Python set shared between the recursive calls, so
      the updated set is returned. *)
  Fixpoint find_cuds_object (fuel : nat) (crit : uid -> bool) (find_all : bool)
    (md : option nat) (depth : nat) (root : uid) (visited : gset uid)
    : option (gset uid * fresult) :=
    match fuel with
    | O => None
    | S fuel =>
        let visited := visited ∪ {[root]} in
        let output := if crit root then [root] else [] in
        if crit root && negb find_all then Some (visited, FOne (Some root))
        else if match md with None => true | Some d => bool_decide (depth < d) end then
          (fix loop (subs : list uid) (visited : gset uid) (output : list uid) :=
             match subs with
             | [] => Some (visited, if find_all then FAll output else FOne None)
             | sub :: subs =>
                 if decide (sub ∈ visited) then loop subs visited output
                 else match find_cuds_object fuel crit find_all md (S depth) sub visited with
                      | None => None
                      | Some (visited', FOne (Some x)) => Some (visited', FOne (Some x))
                      | Some (visited', FOne None) => loop subs visited' output
                      | Some (visited', FAll l) => loop subs visited' (output ++ l)
                      end
             end) (nbrs root) visited output
        else Some (visited, if find_all then FAll output else FOne None)
    end.

  (** registry.py:59-85 [get_subtree] *)
  Fixpoint get_subtree (fuel : nat) (root : uid) (skip : gset uid) : option (gset uid) :=
    match fuel with
    | O => None
    | S fuel =>
        (fix loop (children : list uid) (subtree : gset uid) :=
           match children with
           | [] => Some subtree
           | child :: cs =>
               if decide (child ∈ skip ∪ subtree) then loop cs subtree
               else match get_subtree fuel child (skip ∪ subtree) with
                    | None => None
                    | Some sub => loop cs (subtree ∪ sub)
                    end
           end) (nbrs root) {[root]}
    end.

  (** registry.py:97-119: reachable objects from several roots. *)
  Fixpoint get_reachable (fuel : nat) (roots : list uid) (acc : gset uid) : option (gset uid) :=
    match roots with
    | [] => Some acc
    | r :: rs => match get_subtree fuel r acc with
                 | None => None
                 | Some sub => get_reachable fuel rs (acc ∪ sub)
                 end
    end.
End Traverse.

(** The objects yielded by u.iter(rel=rf). *)
Definition iter_nbrs (O : onto) (s : sess) (rf : option rel) (u : uid) : list uid :=
  match get O s u [] rf None with
  | Ok (Many l) => omap id l
  | _ => []
  end.

(** session.py:68-79 [prune] with registry.py:97-124: delete the triples of every
    registered object that is not reachable.  None = out of fuel; an error if the
    root is not registered (None or deleted: KeyError in get_subtree). *)
Definition prune (O : onto) (fuel : nat) (s : sess) (rf : option rel)
  : option (sess * option exn) :=
  match root s with
  | None => Some (s, Some KeyError)
  | Some r =>
      if decide (r ∈ reg s) then
        match get_reachable (iter_nbrs O s rf) fuel [r] ∅ with
        | None => None
        | Some keep =>
            let deleted := filter (fun u => u ∉ keep) (elements (reg s)) in
            Some (foldl (fun s d => fst (delete_triples s d)) s deleted, None)
        end
      else Some (s, Some KeyError)
  end.

(** ** Proofs *)

(** [set_solver] using only the given hypotheses. *)
Tactic Notation "ss" hyp_list(Hs) := clear -Hs; set_solver.

Section Proofs.
  Context (nbrs : uid -> list uid).
  Notation find := (find_cuds_object nbrs).

  Lemma reach_trans x y z : reach nbrs x y -> reach nbrs y z -> reach nbrs x z.
  Proof. intros Hxy. induction 1; [done|]. by eapply reach_next. Qed.

  Lemma reach_n_app x y z n m :
    reach_n nbrs x n y -> reach_n nbrs y m z -> reach_n nbrs x (n + m) z.
  Proof.
    intros Hxy. induction 1 as [|m y' z' _ IH Hin]; [by rewrite Nat.add_0_r|].
    rewrite Nat.add_succ_r. by eapply reach_n_S.
  Qed.

  Lemma reach_reach_n x y : reach nbrs x y <-> exists n, reach_n nbrs x n y.
  Proof.
    split.
    - induction 1 as [|y z _ [n IH] Hin]; [exists 0; constructor|].
      exists (S n). by eapply reach_n_S.
    - intros [n Hn]. induction Hn; [constructor|]. by eapply reach_next.
  Qed.

  (** What one call of find_cuds_object guarantees.  [deeper x] says that x is
      expanded (its neighbours are looked at). *)
  Record found (crit : uid -> bool) (find_all : bool) (expand : uid -> Prop)
    (md : option nat) (depth : nat) (root : uid) (v v' : gset uid) (r : fresult) : Prop := {
    f_mono : v ⊆ v';
    f_root : root ∈ v';
    f_reach : forall x, x ∈ v' -> x ∉ v ->
              exists n, reach_n nbrs root n x /\ (forall d, md = Some d -> depth <= d -> depth + n <= d);
    f_res : match r with
            | FAll l => find_all = true /\ NoDup l /\
                        (forall x, x ∈ l <-> x ∈ v' /\ x ∉ v /\ crit x = true) /\
                        (forall x, x ∈ v' -> x ∉ v -> expand x -> forall y, y ∈ nbrs x -> y ∈ v')
            | FOne (Some x) => find_all = false /\ x ∈ v' /\ x ∉ v /\ crit x = true
            | FOne None => find_all = false /\
                           (forall x, x ∈ v' -> x ∉ v -> crit x = false) /\
                           (forall x, x ∈ v' -> x ∉ v -> expand x -> forall y, y ∈ nbrs x -> y ∈ v')
            end
  }.

  (** [dep] grades the graph, or there is no depth limit. *)
  Definition graded (dep : uid -> nat) (md : option nat) : Prop :=
    md = None \/ forall x y, y ∈ nbrs x -> dep y = S (dep x).
  Definition expands (dep : uid -> nat) (md : option nat) (x : uid) : Prop :=
    forall d, md = Some d -> dep x < d.

  Definition is_some_one (r : fresult) : bool :=
    match r with FOne (Some _) => true | _ => false end.

  Lemma find_spec (U : gset uid) crit find_all md dep ex :
    (ex = false \/ graded dep md) ->
    (forall x y, x ∈ U -> y ∈ nbrs x -> y ∈ U) ->
    forall fuel root v depth,
      root ∈ U -> root ∉ v -> size (U ∖ v) < fuel ->
      (ex = true -> md = None \/ depth = dep root) ->
      exists v' r, find fuel crit find_all md depth root v = Some (v', r) /\
        v' ⊆ v ∪ U /\
        found crit find_all (fun x => ex = true /\ expands dep md x) md depth root v v' r.
  Proof.
    intros Hgr HU. induction fuel as [|fuel IH]; intros root v depth HrU Hrv Hf Hdep; [lia|].
    cbn [find_cuds_object]. set (v1 := v ∪ {[root]}). set (out0 := if crit root then [root] else []).
    destruct (crit root && negb find_all) eqn:Ec.
    { apply andb_true_iff in Ec as [Ec1 Ec2]. exists v1, (FOne (Some root)).
      split; [done|]. split; [set_solver|]. split.
      - set_solver.
      - set_solver.
      - intros x Hx Hn. assert (x = root) as -> by ss Hx Hn.
        exists 0. split; [constructor|]. intros d _ Hd. lia.
      - split; [by destruct find_all|]. split; [set_solver|]. done. }
    assert (Hnocrit : find_all = false -> crit root = false).
    { intros ->. by destruct (crit root). }
    assert (Hout0 : NoDup out0 /\ forall x, x ∈ out0 <-> x ∈ v1 /\ x ∉ v /\ crit x = true).
    { unfold out0, v1. destruct (crit root) eqn:E.
      - split; [apply NoDup_singleton|]. intros x. rewrite elem_of_list_singleton.
        split; [intros ->; set_solver|]. intros (Hx & Hxv & _). set_solver.
      - split; [constructor|]. intros x. split; [intros Hx; by apply elem_of_nil in Hx|].
        intros (Hx & Hxv & Hc). assert (x = root) as -> by ss Hx Hxv. congruence. }
    destruct (match md with None => true | Some d => bool_decide (depth < d) end) eqn:Em.
    - (* the loop *)
      assert (Hdm : forall d, md = Some d -> depth < d).
      { intros d ->. by apply bool_decide_eq_true in Em. }
      assert (Hsub : forall sub, sub ∈ nbrs root -> ex = true -> md = None \/ S depth = dep sub).
      { intros sub Hs He. destruct Hgr as [?|[?|Hg]]; [congruence|by left|].
        destruct (Hdep He) as [?|Hd]; [by left|right]. rewrite (Hg root sub Hs). congruence. }
      set (loop := fix loop (subs : list uid) (visited : gset uid) (output : list uid) := _).
      assert (Hloop : forall subs vis output,
        (forall y, y ∈ subs -> y ∈ nbrs root) ->
        v1 ⊆ vis -> vis ⊆ v ∪ U ->
        (forall x, x ∈ vis -> x ∉ v ->
           exists n, reach_n nbrs root n x /\ (forall d, md = Some d -> depth <= d -> depth + n <= d)) ->
        (if find_all then NoDup output /\ forall x, x ∈ output <-> x ∈ vis /\ x ∉ v /\ crit x = true
         else forall x, x ∈ vis -> x ∉ v -> crit x = false) ->
        (forall x, x ∈ vis -> x ∉ v -> x <> root -> ex = true /\ expands dep md x ->
           forall y, y ∈ nbrs x -> y ∈ vis) ->
        (forall y, y ∈ nbrs root -> y ∈ vis \/ y ∈ subs) ->
        exists v' r, loop subs vis output = Some (v', r) /\ v' ⊆ v ∪ U /\
          found crit find_all (fun x => ex = true /\ expands dep md x) md depth root v v' r).
      { clear Hout0. clearbody out0.
        induction subs as [|sub subs IHs]; intros vis output Hsubs Hv1 HvU Hre Ho Hcl Hroot.
        - exists vis, (if find_all then FAll output else FOne None).
          split; [done|]. split; [done|].
          assert (Hcl' : forall x, x ∈ vis -> x ∉ v -> ex = true /\ expands dep md x ->
                    forall y, y ∈ nbrs x -> y ∈ vis).
          { intros x Hx Hxv He y Hy. destruct (decide (x = root)) as [->|Hne].
            - destruct (Hroot y Hy) as [?|Hn]; [done|by apply elem_of_nil in Hn].
            - by eapply Hcl. }
          split.
          + ss Hv1.
          + ss Hv1.
          + done.
          + destruct find_all.
            * destruct Ho as [Hnd Ho]. done.
            * done.
        - assert (Hin : sub ∈ nbrs root) by (apply Hsubs; left).
          unfold loop. cbn fix beta iota. fold loop.
          destruct (decide (sub ∈ vis)) as [Hvis|Hvis].
          + apply IHs; try done.
            * intros y Hy. apply Hsubs. by right.
            * intros y Hy. destruct (Hroot y Hy) as [?|Hy']; [by left|].
              apply elem_of_cons in Hy' as [->|?]; [by left|by right].
          + destruct (IH sub vis (S depth)) as (v2 & r2 & Hf2 & Hv2U & Hfd).
            { by eapply HU. }
            { done. }
            { assert (size (U ∖ vis) < size (U ∖ v)); [|lia].
              apply subset_size. split; [ss Hv1|]. intros Hss.
              assert (root ∈ U ∖ v) as Hru by ss HrU Hrv.
              specialize (Hss root Hru). ss Hss Hv1. }
            { by apply Hsub. }
            rewrite Hf2.
            assert (Hre2 : forall x, x ∈ v2 -> x ∉ v ->
               exists n, reach_n nbrs root n x /\ (forall d, md = Some d -> depth <= d -> depth + n <= d)).
            { intros x Hx Hxv. destruct (decide (x ∈ vis)) as [?|Hn]; [by apply Hre|].
              destruct (f_reach _ _ _ _ _ _ _ _ _ Hfd x Hx Hn) as (n & Hn1 & Hn2).
              exists (S n). split.
              - apply (reach_n_app root sub x 1 n); [|done].
                eapply reach_n_S; [constructor|done].
              - intros d Hd Hle. specialize (Hdm d Hd). specialize (Hn2 d Hd). lia. }
            pose proof (f_mono _ _ _ _ _ _ _ _ _ Hfd) as Hmono.
            pose proof (f_root _ _ _ _ _ _ _ _ _ Hfd) as Hsubin.
            pose proof (f_res _ _ _ _ _ _ _ _ _ Hfd) as Hres.
            assert (HvU2 : v2 ⊆ v ∪ U) by ss Hv2U HvU.
            assert (Hroot2 : forall y, y ∈ nbrs root -> y ∈ v2 \/ y ∈ subs).
            { intros y Hy. destruct (Hroot y Hy) as [?|Hy']; [left; by apply Hmono|].
              apply elem_of_cons in Hy' as [->|?]; [by left|by right]. }
            assert (Hsubs2 : forall y, y ∈ subs -> y ∈ nbrs root).
            { intros y Hy. apply Hsubs. by right. }
            destruct r2 as [l2|[x2|]].
            * destruct Hres as (Hfa & Hnd2 & Hl2 & Hcl2). subst find_all.
              apply IHs; try done.
              -- ss Hv1 Hmono.
              -- destruct Ho as [Hnd Ho]. split.
                 ++ apply NoDup_app. split; [done|]. split; [|done].
                    intros x Hx Hx2. apply Ho in Hx as (Hx & _). apply Hl2 in Hx2 as (_ & Hx2 & _).
                    done.
                 ++ intros x. rewrite elem_of_app, Ho, Hl2. split.
                    ** intros [(Ha&Hb&Hc)|(Ha&Hb&Hc)]; [split; [by apply Hmono|done]|].
                       split; [done|]. split; [|done]. ss Hb Hv1.
                    ** intros (?&?&?). destruct (decide (x ∈ vis)); [left|right]; done.
              -- intros x Hx Hxv Hne He y Hy. destruct (decide (x ∈ vis)) as [?|Hn].
                 ++ apply Hmono. by eapply Hcl.
                 ++ by eapply Hcl2.
            * destruct Hres as (Hfa & Hx & Hxv & Hcx).
              exists v2, (FOne (Some x2)). split; [done|]. split; [done|]. split.
              -- ss Hv1 Hmono.
              -- ss Hv1 Hmono.
              -- done.
              -- split; [done|]. split; [done|]. split; [ss Hv1 Hxv|done].
            * destruct Hres as (Hfa & Hno & Hcl2). subst find_all.
              apply IHs; try done.
              -- ss Hv1 Hmono.
              -- intros x Hx Hxv. destruct (decide (x ∈ vis)) as [?|Hn]; [by apply Ho|].
                 by apply Hno.
              -- intros x Hx Hxv Hne He y Hy. destruct (decide (x ∈ vis)) as [?|Hn].
                 ++ apply Hmono. by eapply Hcl.
                 ++ by eapply Hcl2. }
      apply Hloop.
      + done.
      + done.
      + ss HrU.
      + intros x Hx Hxv. assert (x = root) as -> by ss Hx Hxv. exists 0.
        split; [constructor|]. intros d _ ?. lia.
      + destruct find_all; [done|]. intros x Hx Hxv. assert (x = root) as -> by ss Hx Hxv.
        by apply Hnocrit.
      + intros x Hx Hxv Hne. exfalso. ss Hx Hxv Hne.
      + intros y Hy. by right.
    - exists v1, (if find_all then FAll out0 else FOne None). split; [done|].
      split; [set_solver|].
      assert (Hcl : forall x, x ∈ v1 -> x ∉ v -> ex = true /\ expands dep md x ->
                forall y, y ∈ nbrs x -> y ∈ v1).
      { intros x Hx Hxv [He Hexp] y Hy. exfalso. assert (x = root) as -> by ss Hx Hxv.
        destruct md as [d|]; [|done]. apply bool_decide_eq_false in Em.
        destruct (Hdep He) as [?|Hd]; [done|]. specialize (Hexp d eq_refl). lia. }
      split.
      + set_solver.
      + set_solver.
      + intros x Hx Hxv. assert (x = root) as -> by ss Hx Hxv. exists 0.
        split; [constructor|]. intros d _ ?. lia.
      + destruct find_all.
        * destruct Hout0. done.
        * split; [done|]. split; [|done]. intros x Hx Hxv.
          assert (x = root) as -> by ss Hx Hxv. by apply Hnocrit.
  Qed.

  (** [get_subtree] *)
  Lemma get_subtree_spec (U : gset uid) :
    (forall x y, x ∈ U -> y ∈ nbrs x -> y ∈ U) ->
    forall fuel root skip,
      root ∈ U -> size (U ∖ (skip ∪ {[root]})) < fuel ->
      exists S, get_subtree nbrs fuel root skip = Some S /\
        root ∈ S /\ S ⊆ U /\
        (forall x, x ∈ S -> x = root \/ x ∉ skip) /\
        (forall x, x ∈ S -> reach_avoid nbrs skip root x) /\
        (forall x y, x ∈ S -> y ∈ nbrs x -> y ∈ S ∪ skip).
  Proof.
    intros HU. induction fuel as [|fuel IH]; intros root skip HrU Hf; [lia|].
    cbn [get_subtree].
    set (loop := fix loop (children : list uid) (subtree : gset uid) := _).
    assert (Hloop : forall cs sub,
      (forall y, y ∈ cs -> y ∈ nbrs root) ->
      root ∈ sub -> sub ⊆ U ->
      (forall x, x ∈ sub -> x = root \/ x ∉ skip) ->
      (forall x, x ∈ sub -> reach_avoid nbrs skip root x) ->
      (forall x y, x ∈ sub -> x <> root -> y ∈ nbrs x -> y ∈ sub ∪ skip) ->
      (forall y, y ∈ nbrs root -> y ∈ sub ∪ skip \/ y ∈ cs) ->
      exists S, loop cs sub = Some S /\ root ∈ S /\ S ⊆ U /\
        (forall x, x ∈ S -> x = root \/ x ∉ skip) /\
        (forall x, x ∈ S -> reach_avoid nbrs skip root x) /\
        (forall x y, x ∈ S -> y ∈ nbrs x -> y ∈ S ∪ skip)).
    { induction cs as [|c cs IHc]; intros sub Hcs Hr HsU Hskip Hre Hcl Hroot.
      - exists sub. split; [done|]. split; [done|]. split; [done|]. split; [done|].
        split; [done|]. intros x y Hx Hy. destruct (decide (x = root)) as [->|Hne].
        + destruct (Hroot y Hy) as [?|Hn]; [done|by apply elem_of_nil in Hn].
        + by eapply Hcl.
      - unfold loop. cbn fix beta iota. fold loop.
        destruct (decide (c ∈ skip ∪ sub)) as [Hc|Hc].
        + apply IHc; try done.
          * intros y Hy. apply Hcs. by right.
          * intros y Hy. destruct (Hroot y Hy) as [?|Hy']; [by left|].
            apply elem_of_cons in Hy' as [->|?]; [left; ss Hc|by right].
        + assert (Hcn : c ∈ nbrs root) by (apply Hcs; left).
          destruct (IH c (skip ∪ sub)) as (S & HS & HcS & HSU & HSskip & HSre & HScl).
          { by eapply HU. }
          { assert (size (U ∖ (skip ∪ sub ∪ {[c]})) < size (U ∖ (skip ∪ {[root]}))); [|lia].
            apply subset_size. split; [ss Hr|]. intros Hss.
            assert (c ∈ U ∖ (skip ∪ {[root]})) as Hcu.
            { assert (c ∈ U) as HcU by (by eapply HU). ss HcU Hc Hr. }
            specialize (Hss c Hcu). ss Hss. }
          rewrite HS.
          assert (Hre2 : forall x, x ∈ S -> reach_avoid nbrs skip root x).
          { intros x Hx. specialize (HSre x Hx). clear Hx.
            induction HSre as [|y z _ IHr Hz Hns].
            - eapply ra_next; [constructor|done|ss Hc].
            - eapply ra_next; [done|done|ss Hns]. }
          apply IHc.
          * intros y Hy. apply Hcs. by right.
          * ss Hr.
          * ss HsU HSU.
          * intros x Hx. apply elem_of_union in Hx as [Hx|Hx]; [by apply Hskip|].
            right. destruct (HSskip x Hx) as [->|Hk]; [ss Hc|ss Hk].
          * intros x Hx. apply elem_of_union in Hx as [Hx|Hx]; [by apply Hre|by apply Hre2].
          * intros x y Hx Hne Hy. apply elem_of_union in Hx as [Hx|Hx].
            -- specialize (Hcl x y Hx Hne Hy). ss Hcl.
            -- specialize (HScl x y Hx Hy). ss HScl.
          * intros y Hy. destruct (Hroot y Hy) as [Hy'|Hy']; [left; ss Hy'|].
            apply elem_of_cons in Hy' as [->|?]; [left; ss HcS|by right]. }
    apply Hloop.
    - done.
    - clear. set_solver.
    - ss HrU.
    - intros x Hx. left. ss Hx.
    - intros x Hx. assert (x = root) as -> by ss Hx. constructor.
    - intros x y Hx Hne. exfalso. ss Hx Hne.
    - intros y Hy. by right.
  Qed.

  Lemma get_subtree_exact (U : gset uid) fuel root skip :
    (forall x y, x ∈ U -> y ∈ nbrs x -> y ∈ U) -> root ∈ U -> size U < fuel ->
    exists S, get_subtree nbrs fuel root skip = Some S /\
      forall x, x ∈ S <-> reach_avoid nbrs skip root x.
  Proof.
    intros HU Hr Hf.
    destruct (get_subtree_spec U HU fuel root skip Hr) as (S & HS & HrS & _ & _ & Hre & Hcl).
    { assert (size (U ∖ (skip ∪ {[root]})) <= size U); [|lia]. apply subseteq_size. set_solver. }
    exists S. split; [done|]. intros x. split; [apply Hre|].
    induction 1 as [|y z _ IH Hz Hns]; [done|]. specialize (Hcl y z IH Hz). set_solver.
  Qed.

  Lemma reach_avoid_empty x y : reach_avoid nbrs ∅ x y <-> reach nbrs x y.
  Proof.
    split; induction 1; try constructor; [by eapply reach_next|].
    eapply ra_next; [done|done|set_solver].
  Qed.
End Proofs.

(** ** Neighbours of a consistent session *)
From Verif Require Import CudsProofs.

Lemma elem_iter_nbrs O s rf u v :
  sess_inv O s ->
  v ∈ iter_nbrs O s rf u <->
  exists r, connected s u r v /\ forall sup, rf = Some sup -> o_sub O r sup = true.
Proof.
  intros Hinv. unfold iter_nbrs.
  destruct (get_all_spec O s u rf None Hinv) as (bs & -> & _ & Hin).
  assert (Hom : omap id (Some <$> bs) = bs).
  { clear. induction bs as [|b bs IH]; csimpl; [done|]. by rewrite IH. }
  rewrite Hom, Hin. unfold matching. split.
  - intros (r & ? & ? & _). eauto.
  - intros (r & ? & ?). exists r. repeat split; done.
Qed.

Lemma foldl_delete_spec (ds : list uid) s :
  NoDup ds -> (forall d, d ∈ ds -> d ∈ reg s) ->
  let s' := foldl (fun s d => fst (delete_triples s d)) s ds in
  root s' = root s /\
  (forall u, u ∈ reg s' <-> u ∈ reg s /\ u ∉ ds) /\
  (forall t, t ∈ gr s' <-> t ∈ gr s /\ fst t ∉ ds).
Proof.
  revert s; induction ds as [|d ds IH]; intros s Hnd Hin; simpl.
  - split; [done|]. split; intros x; (split; [intros H; split; [done|apply not_elem_of_nil]|tauto]).
  - apply NoDup_cons in Hnd as [Hd Hnd].
    destruct (delete_triples_spec s d) as (s1 & -> & Hr1 & Hro1 & Ht1); [apply Hin; left|].
    simpl. destruct (IH s1 Hnd) as (Hro & Hr & Ht).
    { intros d' Hd'. rewrite Hr1. apply elem_of_difference. split; [apply Hin; by right|].
      rewrite elem_of_singleton. intros ->. done. }
    split; [by rewrite Hro|]. split.
    + intros u. rewrite Hr, Hr1, not_elem_of_cons. set_solver.
    + intros t. rewrite Ht, Ht1, not_elem_of_cons. tauto.
Qed.

Lemma prune_spec O s rf r fuel :
  sess_inv O s -> root s = Some r -> r ∈ reg s -> size (reg s) < fuel ->
  exists s', prune O fuel s rf = Some (s', None) /\ root s' = Some r /\
    (forall u, u ∈ reg s' <-> reach (iter_nbrs O s rf) r u) /\
    (forall t, t ∈ gr s' <-> t ∈ gr s /\ reach (iter_nbrs O s rf) r (fst t)).
Proof.
  intros Hinv Hro Hr Hf. unfold prune. rewrite Hro, decide_True by done.
  assert (HU : forall x y, x ∈ reg s -> y ∈ iter_nbrs O s rf x -> y ∈ reg s).
  { intros x y _ Hy. apply elem_iter_nbrs in Hy as (q & Hc & _); [|done].
    by eapply linked_in_reg. }
  destruct (get_subtree_exact (iter_nbrs O s rf) (reg s) fuel r ∅ HU Hr Hf) as (S & HS & Hex).
  simpl. rewrite HS. rewrite (left_id_L ∅ (∪)).
  assert (Hre : forall x, x ∈ S <-> reach (iter_nbrs O s rf) r x).
  { intros x. by rewrite Hex, reach_avoid_empty. }
  assert (Hrreg : forall x, reach (iter_nbrs O s rf) r x -> x ∈ reg s).
  { induction 1; [done|]. by eapply HU. }
  set (ds := filter (fun u => u ∉ S) (elements (reg s))).
  assert (Hds : forall d, d ∈ ds <-> d ∈ reg s /\ d ∉ S).
  { intros d. unfold ds. rewrite elem_of_list_filter, elem_of_elements. tauto. }
  destruct (foldl_delete_spec ds s) as (Hro' & Hr' & Ht').
  { apply NoDup_filter, NoDup_elements. }
  { intros d Hd. by apply Hds in Hd as [? _]. }
  eexists. split; [done|]. split; [by rewrite Hro'|]. split.
  - intros u. rewrite Hr', Hds, Hre. split.
    + intros [Hu Hn]. destruct (decide (u ∈ S)) as [HuS|HuS]; [by apply Hre|].
      exfalso. apply Hn. split; [done|]. by rewrite <- Hre.
    + intros Hu. split; [by apply Hrreg|]. tauto.
  - intros t. rewrite Ht', Hds, Hre. split.
    + intros [Hu Hn]. split; [done|]. destruct (decide (fst t ∈ S)) as [HuS|HuS]; [by apply Hre|].
      exfalso. apply Hn. rewrite <- Hre. split; [|done].
      destruct Hinv as [_ Hc]. destruct t as [u p]. by eapply Hc.
    + intros [Hu Hre']. split; [done|]. tauto.
Qed.
