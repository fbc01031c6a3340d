p='/verif/rocq/theories/PropWrapDev.v'
s=open(p).read()
new=r'''
(** ** change_oclass of an object with neighbours *)
Section linked.
  Context (O : onto) (mk : cls -> list (attr * lit) -> res (list (attr * lit))).

  (** the links of the neighbours to the object are there already *)
  Definition mirrored (g : graph) (u : uid) : Prop :=
    forall r b, (u, TLink r b) ∈ g -> (b, TLink (o_inv O r) u) ∈ g.
  Lemma tell_one u c b rs : forall g, (forall r, r ∈ rs -> (b, TLink (o_inv O r) u) ∈ g) ->
    forall t, t ∈ foldl (fun g r => set_neighbor g b (o_inv O r) u [c]) g rs <-> t ∈ g \/ t = (u, TType c) /\ rs <> [].
  Proof.
    induction rs as [|r rs IH]; intros g Hg t; simpl; [tauto|].
    rewrite IH.
    - unfold set_neighbor. simpl. rewrite !elem_of_union, elem_of_singleton, elem_of_empty. split.
      + intros [[[H| ->]|[->%elem_of_singleton|[]]]|[-> _]]; [by left|left; apply Hg; left|by right|by right].
      + intros [H|[-> _]]; [by left; left; left|]. left. right. left. by apply elem_of_singleton.
    - intros r' Hr. unfold set_neighbor. apply elem_of_union. left. apply elem_of_union. left. apply Hg. by right.
  Qed.
  Lemma tell_spec u c bs : forall g, mirrored g u -> (forall b, b ∈ bs -> exists r, (u, TLink r b) ∈ g) ->
    exists g', tell_neighbors O g u c (Some <$> bs) = (g', None) /\
      forall t, t ∈ g' <-> t ∈ g \/ t = (u, TType c) /\ bs <> [].
  Proof.
    induction bs as [|b bs IH]; intros g Hm Hl; simpl; [exists g; split; [done|]; tauto|].
    set (g1 := foldl _ g _).
    assert (forall t, t ∈ g1 <-> t ∈ g \/ t = (u, TType c)) as H1.
    { intros t. unfold g1. rewrite tell_one.
      - split; [tauto|]. intros [H|H]; [by left|]. right. split; [done|]. destruct (Hl b) as [r Hr]; [left|].
        assert (r ∈ rels_between g u b) as Hin.
        { unfold rels_between. apply elem_of_list_filter. split; [by apply bool_decide_eq_true|]. apply elem_rels_of. by exists b. }
        intros E. rewrite E in Hin. by apply elem_of_nil in Hin.
      - intros r Hr. unfold rels_between in Hr. apply elem_of_list_filter in Hr as [Hr _]. apply bool_decide_eq_true in Hr. by apply Hm. }
    destruct (IH g1) as (g' & E & H2).
    - intros r b' Hr. apply H1 in Hr as [Hr|Hr]; [|done]. apply H1. left. by apply Hm.
    - intros b' Hb. destruct (Hl b') as [r Hr]; [by right|]. exists r. apply H1. by left.
    - exists g'. split; [done|]. intros t. rewrite H2, H1. split; [intuition done|]. intros [H|[H _]]; tauto.
  Qed.
  Lemma told s u c : sess_inv O s -> covered O s -> exists g1,
    (if decide (head (classes (gr s) u) = Some c) then (gr s, None)
      else match get O s u [] (Some (o_relationship O)) None with
           | Ok (Many bs) => tell_neighbors O (gr s) u c bs
           | Ok (One _) => (gr s, None)
           | Err e => (gr s, Some e)
           end) = (g1, None) /\
    forall t, t ∈ g1 <-> t ∈ gr s \/
      t = (u, TType c) /\ head (classes (gr s) u) <> Some c /\ exists r v, connected s u r v.
  Proof.
    intros Hinv Hcov. case_decide as Hd; [exists (gr s); split; [done|]; tauto|].
    destruct (get_all_spec O s u (Some (o_relationship O)) None Hinv) as (bs & -> & _ & Hbs).
    assert (forall b, b ∈ bs <-> exists r, connected s u r b) as Hb.
    { intros b. rewrite Hbs. split; intros [r Hr]; exists r.
      - apply Hr.
      - split; [done|]. split; [intros sup [= <-]; by eapply Hcov|]. done. }
    destruct (tell_spec u c bs (gr s)) as (g' & -> & Ht).
    - intros r b Hr. by apply (proj1 Hinv).
    - intros b Hin. by apply Hb.
    - exists g'. split; [done|]. intros t. rewrite Ht. split; (intros [H|H]; [by left|right]).
      + destruct H as [-> Hne]. split; [done|]. split; [done|]. destruct bs as [|b bs]; [done|].
        destruct (proj1 (Hb b)) as [r Hr]; [left|]. by exists r, b.
      + destruct H as (-> & _ & r & v & Hl). split; [done|]. intros ->.
        assert (v ∈ ([] : list uid)) as Hv by (apply Hb; by exists r). by apply elem_of_nil in Hv.
  Qed.
  (** An object with neighbours: it gets the new class and the new attributes and
      loses its own links; every other object is as it was, and so keeps its links
      to the object. *)
  Theorem C66_change_oclass_linked s u c kw attrs :
    bidirectional O s -> closed s -> covered O s -> mk c kw = Ok attrs -> NoDup (attrs.*1) ->
    exists s', change_oclass O mk s u c kw = (s', None) /\ reg s' = reg s /\ root s' = root s /\
      forall t, t ∈ gr s' <-> (t ∈ gr s /\ fst t <> u) \/ bare u c attrs t.
  Proof.
    intros Hb Hc Hcov Hmk Hnd. unfold change_oclass.
    destruct (told s u c (conj Hb Hc) Hcov) as (g1 & -> & Hg1). rewrite Hmk.
    match goal with |- context [set_attrs ?x u attrs] => destruct (set_attrs_spec u attrs Hnd x) as (H1 & H2 & H3) end.
    eexists. split; [done|]. split; [done|]. split; [done|]. intros t. rewrite H3. simpl.
    rewrite elem_of_union, elem_of_filter, elem_of_singleton, Hg1. unfold bare. split.
    - intros [[[[Hf [Hg|(-> & _)]]| ->] _]|H]; [by left|by right; left|by right; left|by right; right].
    - intros [[Hg Hf]|[-> |H]]; [| |by right].
      + left. split; [by left; split; [|left]|]. intros a l ->. done.
      + left. split; [by right|]. done.
  Qed.
  (** If the arguments do not fit the class, an object that has neighbours and another
      (first) class is left with the new class beside its old ones; otherwise nothing
      changes. *)
  Theorem C66_change_oclass_linked_error s u c kw e :
    bidirectional O s -> closed s -> covered O s -> mk c kw = Err e ->
    exists s', change_oclass O mk s u c kw = (s', Some e) /\ reg s' = reg s /\ root s' = root s /\
      forall t, t ∈ gr s' <-> t ∈ gr s \/
        t = (u, TType c) /\ head (classes (gr s) u) <> Some c /\ exists r v, connected s u r v.
  Proof.
    intros Hb Hc Hcov Hmk. unfold change_oclass.
    destruct (told s u c (conj Hb Hc) Hcov) as (g1 & -> & Hg1). rewrite Hmk.
    eexists. split; [done|]. split; [done|]. split; [done|]. exact Hg1.
  Qed.
End linked.
Example C66_example_linked :
  covered exO exS /\
  (let r := change_oclass exO exMk0 exS 12 9 [] in snd r = Some TypeError /\
   bool_decide ((12, TType 9)%N ∈ gr (fst r)) = true /\ bool_decide ((12, TType 9)%N ∈ gr exS) = false) /\
  (let r := change_oclass exO exMk0 exS 12 6 [(22, (3, 1))]%N in snd r = None /\
   bool_decide ((11, TLink 1 12)%N ∈ gr (fst r)) = true /\ bool_decide ((12, TLink 2 11)%N ∈ gr (fst r)) = false).
Proof. split; [intros a r b _; apply exO_covers|]. split; repeat split; vm_compute; reflexivity. Qed.

(** ** create_recycle *)
'''
assert s.count('\n(** ** create_recycle *)\n')==1
s=s.replace('\n(** ** create_recycle *)\n',new)
# exMk must be before
d='Definition exMk (c : cls) (kw : list (attr * lit)) : res (list (attr * lit)) := if decide (c = 9%N) then Err TypeError else Ok kw.\n'
assert d in s
s=s.replace(d,'')
s=s.replace('\n(** ** change_oclass of an object with neighbours *)','\n'+d+'\n(** ** change_oclass of an object with neighbours *)').replace('exMk0','exMk')
s=s.replace('Print Assumptions C66_recycle_new.','Print Assumptions C66_change_oclass_linked.\nPrint Assumptions C66_change_oclass_linked_error.\nPrint Assumptions C66_recycle_new.')
open(p,'w').write(s)
