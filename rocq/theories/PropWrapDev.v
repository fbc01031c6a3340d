(** Theorems about the utilities for wrapper developers (property C66). *)
From stdpp Require Import base list gmap.
From Verif Require Import Prelude Cuds CudsProofs CudsX PropCuds WrapDev.

(** The triples of an object u of class c with these attributes and no links. *)
Definition bare (u : uid) (c : cls) (attrs : list (attr * lit)) (t : triple) : Prop :=
  t = (u, TType c) \/ exists a l, (a, l) ∈ attrs /\ t = (u, TAttr a l).

(** ** get_neighbor_diff *)
Lemma NoDup_targets g u r : NoDup (targets g u r).
Proof. apply NoDup_remove_dups. Qed.
Lemma NoDup_rels_of g u : NoDup (rels_of g u).
Proof. apply NoDup_remove_dups. Qed.

(** The neighbours the first object has and the second one lacks, each relationship
    of the chosen kind, none twice. *)
Theorem C66_neighbor_diff O g1 u1 x2 m :
  NoDup (get_neighbor_diff O (Some (g1, u1)) x2 m) /\
  forall v r, (v, r) ∈ get_neighbor_diff O (Some (g1, u1)) x2 m <->
    (u1, TLink r v) ∈ g1 /\
    match m with
    | MAll => True
    | MActive => o_sub O r (o_active O) = true
    | MNonActive => o_sub O r (o_active O) = false
    end /\
    ~ (exists g2 u2, x2 = Some (g2, u2) /\ (u2, TLink r v) ∈ g2).
Proof.
  unfold get_neighbor_diff.
  set (f := fun r => if mode_skips O m r then [] else _).
  assert (forall v r r', (v, r') ∈ f r <-> r' = r /\ mode_skips O m r = false /\ (u1, TLink r v) ∈ g1 /\
    ~ (exists g2 u2, x2 = Some (g2, u2) /\ (u2, TLink r v) ∈ g2)) as Hf.
  { intros v r r'. unfold f. destruct (mode_skips O m r); [split; [intros H; by apply elem_of_nil in H|intros (_ & ? & _); done]|].
    rewrite elem_of_list_In, in_map_iff. split.
    - intros (v' & E & Hin). injection E as -> ->. apply elem_of_list_In, elem_of_list_filter in Hin as [H1 H2].
      apply elem_targets in H2. split; [done|]. split; [done|]. split; [done|]. intros (g2 & u2 & -> & H).
      apply H1. by apply elem_targets.
    - intros (-> & _ & H1 & H2). exists v. split; [done|]. apply elem_of_list_In, elem_of_list_filter.
      split; [|by apply elem_targets]. destruct x2 as [[g2 u2]|]; [|apply not_elem_of_nil].
      intros Hin. apply elem_targets in Hin. apply H2. by exists g2, u2. }
  split.
  - pose proof (NoDup_rels_of g1 u1) as Hnd. induction (rels_of g1 u1) as [|r rs IH]; [constructor|].
    apply stdpp.list.NoDup_cons in Hnd as [Hr Hnd]. simpl. apply stdpp.list.NoDup_app. split; [|split; [|by apply IH]].
    + unfold f. destruct (mode_skips O m r); [constructor|].
      apply (NoDup_fmap_2 (fun v => (v, r))), NoDup_filter, NoDup_targets.
    + intros [v r'] H1 H2. apply Hf in H1 as (-> & _). apply elem_of_list_In, in_flat_map in H2 as (r2 & H2 & H3).
      apply elem_of_list_In in H3. apply Hf in H3 as (-> & _). apply Hr. by apply elem_of_list_In.
  - intros v r. rewrite elem_of_list_In, in_flat_map. split.
    + intros (r' & _ & H). apply elem_of_list_In, Hf in H as (-> & Hm & H1 & H2). split; [done|]. split; [|done].
      destruct m; simpl in Hm; [done|by apply negb_false_iff|done].
    + intros (H1 & Hm & H2). exists r. split; [apply elem_of_list_In, elem_rels_of; by exists v|].
      apply elem_of_list_In, Hf. split; [done|]. split; [|done]. destruct m; simpl; [done|by apply negb_false_iff|done].
Qed.
Theorem C66_neighbor_diff_none O x2 m : get_neighbor_diff O None x2 m = [].
Proof. done. Qed.

(** ** change_oclass *)
Lemma set_attrs_spec u attrs : NoDup (attrs.*1) -> forall s,
  reg (set_attrs s u attrs) = reg s /\ root (set_attrs s u attrs) = root s /\
  forall t, t ∈ gr (set_attrs s u attrs) <->
    (t ∈ gr s /\ forall a l, t = (u, TAttr a l) -> a ∉ attrs.*1) \/ exists a l, (a, l) ∈ attrs /\ t = (u, TAttr a l).
Proof.
  induction attrs as [|[a l] attrs IH]; intros Hnd s.
  - split; [done|]. split; [done|]. intros t. simpl. split.
    + intros H. left. split; [done|]. intros. apply not_elem_of_nil.
    + intros [[H _]|(a & l & H & _)]; [done|by apply elem_of_nil in H].
  - simpl in Hnd. apply stdpp.list.NoDup_cons in Hnd as [Ha Hnd].
    destruct (IH Hnd (set_attr s u a l)) as (H1 & H2 & H3). unfold set_attrs in *. simpl. split; [by rewrite H1|]. split; [by rewrite H2|].
    intros t. rewrite H3, set_attr_spec. split.
    + intros [[Ht Hn]|(a' & l' & Hin & ->)].
      * destruct Ht as [-> |[Ht Hne]].
        -- right. exists a, l. split; [left|done].
        -- left. split; [done|]. intros a' l' ->. rewrite not_elem_of_cons. split; [|by eapply Hn].
           intros ->. by apply (Hne l').
      * right. exists a', l'. split; [by right|done].
    + intros [[Ht Hn]|(a' & l' & Hin & ->)].
      * left. split.
        -- right. split; [done|]. intros l' ->. destruct (Hn a l' eq_refl). left.
        -- intros a' l' ->. specialize (Hn a' l' eq_refl). rewrite not_elem_of_cons in Hn. tauto.
      * apply elem_of_cons in Hin as [E|Hin].
        -- injection E as -> ->. left. split; [by left|]. intros a' l' [= <- <-]. done.
        -- right. by exists a', l'.
Qed.
Lemma get_none O s u rf : (forall r v, ~ connected s u r v) -> get O s u [] rf None = Ok (Many []).
Proof.
  intros Hno. unfold get. destruct (get__spec O s u [] rf None) as [(Hu & _)|(_ & found & m & -> & Hwf & Hin & _ & Hf)]; [done|].
  specialize (Hf eq_refl). subst found. assert (m = []) as ->; [|done].
  destruct m as [|[b rs] m]; [done|]. exfalso. assert (b ∈ ((b, rs) :: m).*1) as Hk by left.
  apply rm_keys_in in Hk as [r Hr]; [|done]. apply Hin in Hr as [Hr _]. by apply Hno in Hr.
Qed.

(** An object without neighbours becomes an object of the new class with the new
    attributes and nothing else; all other objects stay as they are. *)
Theorem C66_change_oclass O mk s u c kw attrs :
  (forall r v, ~ connected s u r v) -> mk c kw = Ok attrs -> NoDup (attrs.*1) ->
  exists s', change_oclass O mk s u c kw = (s', None) /\ reg s' = reg s /\ root s' = root s /\
    forall t, t ∈ gr s' <-> (t ∈ gr s /\ fst t <> u) \/ bare u c attrs t.
Proof.
  intros Hno Hmk Hnd. unfold change_oclass.
  match goal with |- context [let '(_, _) := ?x in _] => assert (x = (gr s, None)) as -> end.
  { case_decide; [done|]. by rewrite get_none. }
  rewrite Hmk.
  match goal with |- context [set_attrs ?x u attrs] => destruct (set_attrs_spec u attrs Hnd x) as (H1 & H2 & H3) end.
  eexists. split; [done|]. split; [done|]. split; [done|]. intros t. rewrite H3. simpl.
  rewrite elem_of_union, elem_of_filter, elem_of_singleton. unfold bare. split.
  - intros [[[[Hf Hg]| ->] _]|H]; [by left|by right; left|by right; right].
  - intros [[Hg Hf]|[-> |H]]; [| |by right].
    + left. split; [by left|]. intros a l ->. done.
    + left. split; [by right|]. done.
Qed.
(** If the arguments do not fit the class nothing changes. *)
Theorem C66_change_oclass_error O mk s u c kw e :
  (forall r v, ~ connected s u r v) -> mk c kw = Err e -> exists s',
  change_oclass O mk s u c kw = (s', Some e) /\ reg s' = reg s /\ gr s' = gr s /\ root s' = root s.
Proof.
  intros Hno Hmk. unfold change_oclass.
  match goal with |- context [let '(_, _) := ?x in _] => assert (x = (gr s, None)) as -> end.
  { case_decide; [done|]. by rewrite get_none. }
  rewrite Hmk. eexists. split; [done|]. done.
Qed.

Definition exMk (c : cls) (kw : list (attr * lit)) : res (list (attr * lit)) := if decide (c = 9%N) then Err TypeError else Ok kw.

(** ** change_oclass of an object with neighbours *)
Section linked.
  Context (O : onto) (mk : cls -> list (attr * lit) -> res (list (attr * lit))).

  (** the links of the neighbours to the object are there already *)
  Definition mirrored (g : graph) (u : uid) : Prop :=
    forall r b, (u, TLink r b) ∈ g -> (b, TLink (o_inv O r) u) ∈ g.
  Lemma tell_one u c b rs : forall g, (forall r, r ∈ rs -> (b, TLink (o_inv O r) u) ∈ g) ->
    forall t, t ∈ foldl (fun g r => set_neighbor g b (o_inv O r) u [c]) g rs <-> t ∈ g \/ t = (u, TType c) /\ rs <> [].
  Proof.
    induction rs as [|r rs IH]; intros g Hg t; simpl; [tauto|].
    rewrite IH.
    - unfold set_neighbor. simpl. rewrite !elem_of_union, elem_of_singleton, elem_of_empty. split.
      + intros [[[H| ->]|[->%elem_of_singleton|[]]]|[-> _]]; [by left|left; apply Hg; left|by right|by right].
      + intros [H|[-> _]]; [by left; left; left|]. left. right. left. by apply elem_of_singleton.
    - intros r' Hr. unfold set_neighbor. apply elem_of_union. left. apply elem_of_union. left. apply Hg. by right.
  Qed.
  Lemma tell_spec u c bs : forall g, mirrored g u -> (forall b, b ∈ bs -> exists r, (u, TLink r b) ∈ g) ->
    exists g', tell_neighbors O g u c (Some <$> bs) = (g', None) /\
      forall t, t ∈ g' <-> t ∈ g \/ t = (u, TType c) /\ bs <> [].
  Proof.
    induction bs as [|b bs IH]; intros g Hm Hl; simpl; [exists g; split; [done|]; tauto|].
    set (g1 := foldl _ g _).
    assert (forall t, t ∈ g1 <-> t ∈ g \/ t = (u, TType c)) as H1.
    { intros t. unfold g1. rewrite tell_one.
      - split; [tauto|]. intros [H|H]; [by left|]. right. split; [done|]. destruct (Hl b) as [r Hr]; [left|].
        assert (r ∈ rels_between g u b) as Hin.
        { unfold rels_between. apply elem_of_list_filter. split; [by apply bool_decide_eq_true|]. apply elem_rels_of. by exists b. }
        intros E. rewrite E in Hin. by apply elem_of_nil in Hin.
      - intros r Hr. unfold rels_between in Hr. apply elem_of_list_filter in Hr as [Hr _]. apply bool_decide_eq_true in Hr. by apply Hm. }
    destruct (IH g1) as (g' & E & H2).
    - intros r b' Hr. apply H1 in Hr as [Hr|Hr]; [|done]. apply H1. left. by apply Hm.
    - intros b' Hb. destruct (Hl b') as [r Hr]; [by right|]. exists r. apply H1. by left.
    - exists g'. split; [done|]. intros t. rewrite H2, H1. split; [intuition done|]. intros [H|[H _]]; tauto.
  Qed.
  Lemma told s u c : sess_inv O s -> covered O s -> exists g1,
    (if decide (head (classes (gr s) u) = Some c) then (gr s, None)
      else match get O s u [] (Some (o_relationship O)) None with
           | Ok (Many bs) => tell_neighbors O (gr s) u c bs
           | Ok (One _) => (gr s, None)
           | Err e => (gr s, Some e)
           end) = (g1, None) /\
    forall t, t ∈ g1 <-> t ∈ gr s \/
      t = (u, TType c) /\ head (classes (gr s) u) <> Some c /\ exists r v, connected s u r v.
  Proof.
    intros Hinv Hcov. case_decide as Hd; [exists (gr s); split; [done|]; tauto|].
    destruct (get_all_spec O s u (Some (o_relationship O)) None Hinv) as (bs & -> & _ & Hbs).
    assert (forall b, b ∈ bs <-> exists r, connected s u r b) as Hb.
    { intros b. rewrite Hbs. split; intros [r Hr]; exists r.
      - apply Hr.
      - split; [done|]. split; [intros sup [= <-]; by eapply Hcov|]. done. }
    destruct (tell_spec u c bs (gr s)) as (g' & -> & Ht).
    - intros r b Hr. exact (proj1 (proj1 Hinv u r b) Hr).
    - intros b Hin. by apply Hb.
    - exists g'. split; [done|]. intros t. rewrite Ht. split; (intros [H|H]; [by left|right]).
      + destruct H as [-> Hne]. split; [done|]. split; [done|]. destruct bs as [|b bs]; [done|].
        destruct (proj1 (Hb b)) as [r Hr]; [left|]. by exists r, b.
      + destruct H as (-> & _ & r & v & Hl). split; [done|]. intros ->.
        assert (v ∈ ([] : list uid)) as Hv by (apply Hb; by exists r). by apply elem_of_nil in Hv.
  Qed.
  (** An object with neighbours: it gets the new class and the new attributes and
      loses its own links; every other object is as it was, and so keeps its links
      to the object. *)
  Theorem C66_change_oclass_linked s u c kw attrs :
    bidirectional O s -> closed s -> covered O s -> mk c kw = Ok attrs -> NoDup (attrs.*1) ->
    exists s', change_oclass O mk s u c kw = (s', None) /\ reg s' = reg s /\ root s' = root s /\
      forall t, t ∈ gr s' <-> (t ∈ gr s /\ fst t <> u) \/ bare u c attrs t.
  Proof.
    intros Hb Hc Hcov Hmk Hnd. unfold change_oclass.
    destruct (told s u c (conj Hb Hc) Hcov) as (g1 & -> & Hg1). rewrite Hmk.
    match goal with |- context [set_attrs ?x u attrs] => destruct (set_attrs_spec u attrs Hnd x) as (H1 & H2 & H3) end.
    eexists. split; [done|]. split; [done|]. split; [done|]. intros t. rewrite H3. simpl.
    rewrite elem_of_union, elem_of_filter, elem_of_singleton, Hg1. unfold bare. split.
    - intros [[[[Hf [Hg|(-> & _)]]| ->] _]|H]; [by left|by right; left|by right; left|by right; right].
    - intros [[Hg Hf]|[-> |H]]; [| |by right].
      + left. split; [by left; split; [|left]|]. intros a l ->. done.
      + left. split; [by right|]. done.
  Qed.
  (** If the arguments do not fit the class, an object that has neighbours and another
      (first) class is left with the new class beside its old ones; otherwise nothing
      changes. *)
  Theorem C66_change_oclass_linked_error s u c kw e :
    bidirectional O s -> closed s -> covered O s -> mk c kw = Err e ->
    exists s', change_oclass O mk s u c kw = (s', Some e) /\ reg s' = reg s /\ root s' = root s /\
      forall t, t ∈ gr s' <-> t ∈ gr s \/
        t = (u, TType c) /\ head (classes (gr s) u) <> Some c /\ exists r v, connected s u r v.
  Proof.
    intros Hb Hc Hcov Hmk. unfold change_oclass.
    destruct (told s u c (conj Hb Hc) Hcov) as (g1 & -> & Hg1). rewrite Hmk.
    eexists. split; [done|]. split; [done|]. split; [done|]. exact Hg1.
  Qed.
End linked.
Example C66_example_linked :
  covered exO exS /\
  (let r := change_oclass exO exMk exS 12%N 9%N [] in snd r = Some TypeError /\
   bool_decide ((12, TType 9)%N ∈ gr (fst r)) = true /\ bool_decide ((12, TType 9)%N ∈ gr exS) = false) /\
  (let r := change_oclass exO exMk exS 12%N 6%N [(22, (3, 1))]%N in snd r = None /\
   bool_decide ((11, TLink 1 12)%N ∈ gr (fst r)) = true /\ bool_decide ((12, TLink 2 11)%N ∈ gr (fst r)) = false).
Proof. split; [intros a r b _; apply exO_covers|]. split; repeat split; vm_compute; reflexivity. Qed.

(** ** create_recycle *)

(** A uid that is not in use: the object is created. *)
Theorem C66_recycle_new O mk s u c kw b rels attrs :
  u ∉ reg s -> u <> 0%N -> mk c kw = Ok attrs ->
  exists s', create_recycle O mk s u c kw b rels = (s', None) /\ reg s' = reg s ∪ {[u]} /\
    forall t, t ∈ gr s' <-> t ∈ gr s \/ bare u c attrs t.
Proof.
  intros Hu H0 Hmk. unfold create_recycle. rewrite decide_False, Hmk by done. unfold create. rewrite decide_False by done.
  eexists. split; [done|]. split; [done|]. intros t. simpl. rewrite !elem_of_union, elem_of_singleton, elem_of_list_to_set.
  rewrite elem_of_list_In, in_map_iff. unfold bare. split.
  - intros [[H|H]|([a l] & <- & H)]; [by left|by right; left|]. right; right. exists a, l. split; [by apply elem_of_list_In|done].
  - intros [H|[H|(a & l & H & ->)]]; [by left; left|by left; right|]. right. exists (a, l). split; [done|by apply elem_of_list_In].
Qed.

Lemma clear_rel_spec g u r t : t ∈ clear_rel g u r <-> t ∈ g /\ forall v, t <> (u, TLink r v).
Proof.
  unfold clear_rel. rewrite elem_of_filter. destruct t as [s [r' v|c|a l]].
  - rewrite negb_true_iff, andb_false_iff, !bool_decide_eq_false. split.
    + intros [H1 H2]. split; [done|]. intros v' [= -> -> ->]. tauto.
    + intros [H1 H2]. split; [|done]. destruct (decide (s = u)) as [-> |]; [|by left]. right. intros ->. by apply (H2 v).
  - split; [intros [_ H]; split; [done|]; done|intros [H _]; done].
  - split; [intros [_ H]; split; [done|]; done|intros [H _]; done].
Qed.
Lemma drop_keep_spec O u rels : forall s, exists s1, drop_links O s u false rels = (s1, None) /\ reg s1 = reg s /\ root s1 = root s /\
  forall t, t ∈ gr s1 <-> t ∈ gr s /\ forall r v, r ∈ rels -> t <> (u, TLink r v).
Proof.
  induction rels as [|r rels IH]; intros s; simpl.
  - exists s. split; [done|]. split; [done|]. split; [done|]. intros t. split; [|tauto]. intros H. split; [done|].
    intros r v Hr. by apply elem_of_nil in Hr.
  - destruct (IH (set_gr s (clear_rel (gr s) u r))) as (s1 & -> & H1 & H2 & H3). exists s1. split; [done|].
    split; [by rewrite H1|]. split; [by rewrite H2|]. intros t. rewrite H3. simpl. rewrite clear_rel_spec. split.
    + intros [[Ha Hb] Hc]. split; [done|]. intros r' v Hr. apply elem_of_cons in Hr as [-> |Hr]; [done|by apply Hc].
    + intros [Ha Hb]. split; [split; [done|]|].
      * intros v. apply Hb. left.
      * intros r' v Hr. apply Hb. by right.
Qed.
(** fix_neighbors=False: the object is replaced, the links of others to it stay. *)
Theorem C66_recycle_keep O mk s u c kw rels attrs :
  u ∈ reg s -> rels ≡ₚ rels_of (gr s) u -> mk c kw = Ok attrs -> NoDup (attrs.*1) ->
  exists s', create_recycle O mk s u c kw false rels = (s', None) /\ reg s' = reg s /\ root s' = root s /\
    forall t, t ∈ gr s' <-> (t ∈ gr s /\ fst t <> u) \/ bare u c attrs t.
Proof.
  intros Hu Hp Hmk Hnd. unfold create_recycle. rewrite decide_True by done.
  destruct (drop_keep_spec O u rels s) as (s1 & -> & H1 & H2 & H3).
  destruct (C66_change_oclass O mk s1 u c kw attrs) as (s' & -> & H4 & H5 & H6); [|done|done|].
  { intros r v Hc. apply H3 in Hc as [Hc Hn]. apply (Hn r v); [|done]. rewrite Hp. apply elem_rels_of. by exists v. }
  exists s'. split; [done|]. split; [congruence|]. split; [congruence|]. intros t. rewrite H6, H3. split.
  - intros [[[Ht _] Hf]|H]; [by left|by right].
  - intros [[Ht Hf]|H]; [|by right]. left. split; [|done]. split; [done|]. intros r v _ ->. done.
Qed.

Section fix_neighbors.
  Context (O : onto) (HO : involutive O) (refl : forall r, o_sub O r r = true).

  Lemma matching_all s u r b r' : matching O s u [] (Some r) None b r' <-> connected s u r' b /\ o_sub O r' r = true.
  Proof.
    unfold matching. split.
    - intros (H1 & H2 & _). split; [done|by apply H2].
    - intros [H1 H2]. split; [done|]. split; [by intros sup [= <-]|]. done.
  Qed.
  Lemma drop_fix_spec u rels : forall s s1, sess_inv O s -> drop_links O s u true rels = (s1, None) ->
    reg s1 = reg s /\ root s1 = root s /\ sess_inv O s1 /\
    forall t, t ∈ gr s1 <-> t ∈ gr s /\ forall r r' b, r ∈ rels -> connected s u r' b -> o_sub O r' r = true ->
      t <> (u, TLink r' b) /\ t <> (b, TLink (o_inv O r') u).
  Proof.
    induction rels as [|r rels IH]; intros s s1 Hinv; simpl.
    - intros [= <-]. split; [done|]. split; [done|]. split; [done|]. intros t. split; [|tauto]. intros H. split; [done|].
      intros r r' b Hr. by apply elem_of_nil in Hr.
    - pose proof (remove_spec O s u [] (Some r) None Hinv) as Hrm. pose proof (remove_inv O s u [] (Some r) None HO Hinv) as Hinv2.
      destruct (remove O s u [] (Some r) None) as [s2 [e|]]; [done|]. simpl in Hinv2.
      destruct Hrm as [(? & _)|[(? & _)|(_ & _ & R1 & R2 & R3)]]; [done|done|].
      intros Hd. destruct (IH s2 s1 Hinv2 Hd) as (H1 & H2 & H3 & H4). split; [congruence|]. split; [congruence|]. split; [done|].
      setoid_rewrite matching_all in R3.
      intros t. rewrite H4, R3. split.
      + intros [[Ha Hb] Hc]. split; [done|]. intros r0 r' b Hr Hl Hs. apply elem_of_cons in Hr as [-> |Hr]; [by apply Hb|].
        destruct (decide (o_sub O r' r = true)) as [Hs'|Hs']; [by apply Hb|].
        destruct (decide ((u, TLink r' b) ∈ gr s2)) as [Hl2|Hl2]; [by apply (Hc r0)|].
        split; intros ->.
        * by apply Hl2, R3.
        * apply Hl2. assert ((b, TLink (o_inv O r') u) ∈ gr s2) as Hx by (by apply R3).
          exact (proj2 (proj1 Hinv2 u r' b) Hx).
      + intros [Ha Hb]. split; [split; [done|]|].
        * intros b r' [Hl Hs]. apply (Hb r r' b); [left|done|done].
        * intros r0 r' b Hr Hl Hs. apply R3 in Hl as [Hl _]. apply (Hb r0 r' b); [by right|done|done].
  Qed.
  (** fix_neighbors=True: whenever create_recycle returns, the object is replaced and
      nothing refers to it any more; all other objects are as they were. *)
  Theorem C66_recycle_fix mk s u c kw rels attrs s' :
    bidirectional O s -> closed s -> u ∈ reg s -> rels ≡ₚ rels_of (gr s) u -> mk c kw = Ok attrs -> NoDup (attrs.*1) ->
    create_recycle O mk s u c kw true rels = (s', None) ->
    reg s' = reg s /\ root s' = root s /\ bidirectional O s' /\
    forall t, t ∈ gr s' <-> (t ∈ gr s /\ fst t <> u /\ forall b r, t <> (b, TLink r u)) \/ bare u c attrs t.
  Proof.
    intros Hb Hc Hu Hp Hmk Hnd. pose proof (conj Hb Hc : sess_inv O s) as Hinv. unfold create_recycle. rewrite decide_True by done.
    destruct (drop_links O s u true rels) as [s1 [e|]] eqn:Ed; [done|].
    destruct (drop_fix_spec u rels s s1 Hinv Ed) as (H1 & H2 & Hinv1 & H3).
    assert (forall t, t ∈ gr s1 <-> t ∈ gr s /\ forall b r, t <> (u, TLink r b) /\ t <> (b, TLink r u)) as H3'.
    { intros t. rewrite H3. split; intros [Ha Hd]; (split; [done|]).
      - intros b r. split; intros ->.
        + destruct (Hd r r b) as [Hx _]; [rewrite Hp; apply elem_rels_of; by exists b|done|apply refl|done].
        + apply Hb in Ha as Hl. destruct (Hd (o_inv O r) (o_inv O r) b) as [_ Hx]; [rewrite Hp; apply elem_rels_of; by exists b|done|apply refl|].
          by rewrite HO in Hx.
      - intros r r' b _ _ _. split; apply Hd. }
    destruct (C66_change_oclass O mk s1 u c kw attrs) as (s2 & -> & H4 & H5 & H6); [|done|done|].
    { intros r v Hl. apply H3' in Hl as [_ Hn]. by destruct (Hn v r). }
    intros [= <-].
    assert (forall t, t ∈ gr s2 <-> (t ∈ gr s /\ fst t <> u /\ forall b r, t <> (b, TLink r u)) \/ bare u c attrs t) as H7.
    { intros t. rewrite H6, H3'. split.
      - intros [[[Ht Hn] Hf]|H]; [|by right]. left. split; [done|]. split; [done|]. intros b r. apply Hn.
      - intros [(Ht & Hf & Hn)|H]; [|by right]. left. split; [|done]. split; [done|]. intros b r. split; [|apply Hn]. by intros ->. }
    split; [congruence|]. split; [congruence|]. split; [|done].
    assert (forall a r b, connected s2 a r b <-> connected s a r b /\ a <> u /\ b <> u) as Hlink.
    { intros a r b. unfold connected. rewrite H7. split.
      - intros [(Ht & Hf & Hn)|[E|(? & ? & _ & E)]]; [|discriminate E..]. split; [done|]. split; [done|]. intros ->. by apply (Hn a r).
      - intros (Ht & Ha & Hb'). left. split; [done|]. split; [done|]. intros b0 r0 [= _ _ ->]. done. }
    intros a r b. rewrite !Hlink, (Hb a r b). tauto.
  Qed.

  (** It does return when none of the object's relationships is below another one and
      the object is not linked to itself. *)
  Theorem C66_recycle_fix_returns mk s u c kw rels attrs :
    bidirectional O s -> closed s -> u ∈ reg s -> rels ≡ₚ rels_of (gr s) u -> mk c kw = Ok attrs -> NoDup (attrs.*1) ->
    (forall r r' b b', connected s u r b -> connected s u r' b' -> o_sub O r r' = true -> r = r') ->
    (forall r, ~ connected s u r u) ->
    exists s', create_recycle O mk s u c kw true rels = (s', None).
  Proof.
    intros Hb Hc Hu Hp Hmk Hnd Hsub Hself. pose proof (conj Hb Hc : sess_inv O s) as Hinv.
    unfold create_recycle. rewrite decide_True by done.
    assert (exists s1, drop_links O s u true rels = (s1, None)) as (s1 & Ed).
    { assert (NoDup rels) as Hnr by (rewrite Hp; apply NoDup_rels_of).
      assert (forall r, r ∈ rels -> exists b, connected s u r b) as Hr by (intros r Hr; rewrite Hp in Hr; by apply elem_rels_of in Hr).
      clear -HO refl Hinv Hnr Hr Hsub Hself. revert s Hinv Hr Hsub Hself. induction rels as [|r rels IH]; intros s Hinv Hr Hsub Hself; simpl; [by eexists|].
      apply stdpp.list.NoDup_cons in Hnr as [Hrr Hnr].
      pose proof (remove_spec O s u [] (Some r) None Hinv) as Hrm. pose proof (remove_inv O s u [] (Some r) None HO Hinv) as Hinv2.
      destruct (remove O s u [] (Some r) None) as [s2 e]. simpl in Hinv2. setoid_rewrite matching_all in Hrm.
      destruct Hrm as [(_ & ? & _)|[(_ & _ & _ & Hno)|(-> & _ & R1 & R2 & R3)]]; [done| |].
      { exfalso. destruct (Hr r) as (b & Hl); [left|]. apply (Hno b r). split; [done|apply refl]. }
      apply IH; [done|done| | |].
      - intros r' Hr'. destruct (Hr r') as (b & Hl); [by right|]. exists b. apply R3. split; [done|].
        intros b2 r2 [Hl2 Hs2]. assert (r2 = r) as ->.
        { destruct (Hr r) as (b3 & Hl3); [left|]. by apply (Hsub r2 r b2 b3). }
        split.
        + intros [= -> ->]. done.
        + intros [= -> _ ->]. by apply Hself in Hl.
      - intros r1 r2 b b' L1 L2. apply R3 in L1 as [L1 _], L2 as [L2 _]. by apply (Hsub r1 r2 b b').
      - intros r1 L1. apply R3 in L1 as [L1 _]. by apply Hself in L1. }
    rewrite Ed. destruct (drop_fix_spec u rels s s1 Hinv Ed) as (_ & _ & _ & H3).
    destruct (C66_change_oclass O mk s1 u c kw attrs) as (s2 & E & _); [|done|done|by exists s2].
    intros r v Hl. apply H3 in Hl as [Hl Hn]. destruct (Hn r r v) as [Hx _]; [rewrite Hp; apply elem_rels_of; by exists v|done|apply refl|done].
  Qed.
End fix_neighbors.

(** ** Concrete cases and restrictions *)
Local Open Scope N_scope.
Lemma links_ok (g : graph) (f : uid -> rel -> uid -> bool) :
  forallb (fun t : triple => match snd t with TLink r b => f (fst t) r b | _ => true end) (elements g) = true ->
  forall a r b, (a, TLink r b) ∈ g -> f a r b = true.
Proof. intros H a r b Hin. apply elem_of_elements, elem_of_list_In in Hin. rewrite forallb_forall in H. by apply (H _ Hin). Qed.

(** exS: 11 is linked to itself and to 12 by 1 and its inverse 2, 12 and 13 by 5. *)
Example C66_example_recycle :
  let r := create_recycle exO exMk exS 12 6 [(22, (3, 1))]%N true (rels_of (gr exS) 12%N) in
  snd r = None /\
  bool_decide (gr (fst r) = {[ (11, TType 3); (11, TAttr 21 (2, 1)); (11, TLink 1 11); (11, TLink 2 11); (12, TType 6); (12, TAttr 22 (3, 1)); (13, TType 4) ]}%N) = true.
Proof. split; vm_compute; reflexivity. Qed.
Example C66_example_hyps :
  bidirectional exO exS /\ closed exS /\ 12%N ∈ reg exS /\ (forall r, o_sub exO r r = true) /\
  (forall r r' b b', connected exS 12 r b -> connected exS 12 r' b' -> o_sub exO r r' = true -> r = r') /\
  (forall r, ~ connected exS 12 r 12).
Proof.
  assert (reachable exO exS) as Hr by (apply run_reachable; vm_compute; reflexivity).
  destruct (reachable_inv exO exS exO_involutive exO_covers Hr) as [Hb Hc]. split; [done|]. split; [done|].
  split; [apply (bool_decide_unpack _); vm_compute; exact I|]. split; [intros r; simpl; by rewrite bool_decide_true|].
  assert (forall r b, connected exS 12 r b -> (r = 2 /\ b = 11 \/ r = 5 /\ b = 13)%N) as Hl.
  { intros r b H. apply (links_ok (gr exS) (fun a r b => negb (a =? 12) || ((r =? 2) && (b =? 11)) || ((r =? 5) && (b =? 13)))) in H;
      [|vm_compute; reflexivity]. simpl in H. rewrite orb_true_iff, !andb_true_iff, !N.eqb_eq in H. done. }
  split.
  - intros r r' b b' H1 H2 Hs. apply Hl in H1 as [[-> _]|[-> _]], H2 as [[-> _]|[-> _]]; try done; vm_compute in Hs; discriminate.
  - intros r H. apply Hl in H as [[_ H]|[_ H]]; discriminate.
Qed.

(** An ontology with hasPart (1, inverse 2) and its subclass hasWheel (3, inverse 4). *)
Definition exSub : onto := {|
  o_sub r s := bool_decide (r = s) || bool_decide (s = 0%N) || (bool_decide (r = 3%N) && bool_decide (s = 1%N))
               || (bool_decide (r = 4%N) && bool_decide (s = 2%N));
  o_inv r := if decide (r = 1%N) then 2%N else if decide (r = 2%N) then 1%N else
             if decide (r = 3%N) then 4%N else if decide (r = 4%N) then 3%N else r;
  o_csub := o_csub exO; o_relationship := 0%N; o_active := 1%N |}.
Definition exSubS : sess := run exSub
  [Create 11 3 []; Create 12 4 []; Create 13 4 []; Add 11 1 [12]; Add 11 3 [13]]%N.
(** Beyond the restriction: whether create_recycle raises depends on the order in
    which the set of relationships is iterated; when it raises the object has
    already lost its links and keeps its old class. *)
Theorem C66_subrelationships_refuted : exists O s u rels1 rels2 c,
  reachable O s /\ rels1 ≡ₚ rels_of (gr s) u /\ rels2 ≡ₚ rels_of (gr s) u /\
  snd (create_recycle O exMk s u c [] true rels1) = None /\
  snd (create_recycle O exMk s u c [] true rels2) = Some RuntimeError /\
  forall r b, ~ connected (fst (create_recycle O exMk s u c [] true rels2)) u r b.
Proof.
  exists exSub, exSubS, 11%N, [3; 1]%N, [1; 3]%N, 6%N.
  split; [apply run_reachable; vm_compute; reflexivity|].
  assert (rels_of (gr exSubS) 11%N = [1; 3]%N \/ rels_of (gr exSubS) 11%N = [3; 1]%N) as He by (vm_compute; tauto).
  split; [destruct He as [-> | ->]; [apply Permutation_swap|done]|].
  split; [destruct He as [-> | ->]; [done|apply Permutation_swap]|].
  split; [vm_compute; reflexivity|]. split; [vm_compute; reflexivity|].
  intros r b H.
  apply (links_ok (gr (fst (create_recycle exSub exMk exSubS 11 6 [] true [1; 3]))) (fun a _ _ => negb (a =? 11))) in H;
    [discriminate H|vm_compute; reflexivity].
Qed.
(** change_oclass does not check that there are no neighbours: it removes the
    object's side of the links only. *)
Theorem C66_neighbours_refuted : exists O s u v r c, reachable O s /\ connected s u r v /\
  snd (change_oclass O exMk s u c []) = None /\
  ~ connected (fst (change_oclass O exMk s u c [])) u r v /\
  connected (fst (change_oclass O exMk s u c [])) v (o_inv O r) u.
Proof.
  exists exO, exS, 12%N, 11%N, 2%N, 6%N. split; [apply run_reachable; vm_compute; reflexivity|].
  split; [unfold connected; apply (bool_decide_unpack _); vm_compute; exact I|]. split; [vm_compute; reflexivity|].
  split; unfold connected; apply (bool_decide_unpack _); vm_compute; exact I.
Qed.
(** create_recycle with arguments that do not fit the class raises after the links
    have been removed. *)
Theorem C66_arguments_refuted : exists O s u c, reachable O s /\
  snd (create_recycle O exMk s u c [] true (rels_of (gr s) u)) = Some TypeError /\
  (exists r v, connected s u r v /\ ~ connected (fst (create_recycle O exMk s u c [] true (rels_of (gr s) u))) u r v).
Proof.
  exists exO, exS, 12%N, 9%N. split; [apply run_reachable; vm_compute; reflexivity|].
  split; [vm_compute; reflexivity|]. exists 2%N, 11%N. split; unfold connected; apply (bool_decide_unpack _); vm_compute; exact I.
Qed.
Example C66_example_diff :
  bool_decide (get_neighbor_diff exO (Some (gr exS, 12%N)) (Some (gr exS, 13%N)) MAll ≡ₚ [(11, 2); (13, 5)]%N) = true /\
  get_neighbor_diff exO (Some (gr exS, 11%N)) None MActive = [(11, 1); (12, 1)]%N.
Proof. split; vm_compute; reflexivity. Qed.

Print Assumptions C66_neighbor_diff.
Print Assumptions C66_change_oclass.
Print Assumptions C66_change_oclass_error.
Print Assumptions C66_change_oclass_linked.
Print Assumptions C66_change_oclass_linked_error.
Print Assumptions C66_recycle_new.
Print Assumptions C66_recycle_keep.
Print Assumptions C66_recycle_fix.
Print Assumptions C66_recycle_fix_returns.
Print Assumptions C66_subrelationships_refuted.
Print Assumptions C66_neighbours_refuted.
Print Assumptions C66_arguments_refuted.
