(** Proofs about the single-session CUDS model (Cuds.v). *)
From stdpp Require Import base list gmap.
From Verif Require Import Prelude Cuds.

(** ** Specification vocabulary (independent of the model's helpers) *)

(** Object [a] is connected to [b] by relationship [r]. *)
Definition connected (s : sess) (a : uid) (r : rel) (b : uid) : Prop :=
  (a, TLink r b) ∈ gr s.

(** Every link has its inverse link. *)
Definition bidirectional (O : onto) (s : sess) : Prop :=
  forall a r b, connected s a r b <-> connected s b (o_inv O r) a.

(** Every subject of a triple is an object of the session. *)
Definition closed (s : sess) : Prop :=
  forall u p, (u, p) ∈ gr s -> u ∈ reg s.

(** The ontology's inverse is an involution. *)
Definition involutive (O : onto) : Prop := forall r, o_inv O (o_inv O r) = r.

(** [b] is, via [r], one of the objects that get/remove(uids, rel=rf, oclass=oc)
    called on [a] refers to. *)
Definition matching (O : onto) (s : sess) (a : uid) (uids : list uid)
  (rf : option rel) (oc : option cls) (b : uid) (r : rel) : Prop :=
  connected s a r b /\
  (forall sup, rf = Some sup -> o_sub O r sup = true) /\
  (uids <> [] -> b ∈ uids) /\
  (forall c, oc = Some c -> exists t, (b, TType t) ∈ gr s /\ o_csub O t c = true).

(** ** Reading *)

Lemma elem_rels_of g u r : r ∈ rels_of g u <-> exists v, (u, TLink r v) ∈ g.
Proof.
  unfold rels_of. rewrite elem_of_remove_dups, elem_of_list_omap. split.
  - intros ([s p] & Hin & Hf). apply elem_of_elements in Hin.
    destruct p; simplify_option_eq. eauto.
  - intros [v Hv]. exists (u, TLink r v). split; [by apply elem_of_elements|].
    by simplify_option_eq.
Qed.

Lemma elem_targets g u r v : v ∈ targets g u r <-> (u, TLink r v) ∈ g.
Proof.
  unfold targets. rewrite elem_of_remove_dups, elem_of_list_omap. split.
  - intros ([s p] & Hin & Hf). apply elem_of_elements in Hin.
    destruct p; simplify_option_eq. naive_solver.
  - intros Hv. exists (u, TLink r v). split; [by apply elem_of_elements|].
    rewrite decide_True; done.
Qed.

Lemma elem_classes g u c : c ∈ classes g u <-> (u, TType c) ∈ g.
Proof.
  unfold classes. rewrite elem_of_remove_dups, elem_of_list_omap. split.
  - intros ([s p] & Hin & Hf). apply elem_of_elements in Hin.
    destruct p; simplify_option_eq. done.
  - intros Hv. exists (u, TType c). split; [by apply elem_of_elements|].
    by simplify_option_eq.
Qed.

Lemma elem_consider O g u rf r :
  r ∈ consider O g u rf <-> (exists v, (u, TLink r v) ∈ g) /\ rel_ok O rf r = true.
Proof. unfold consider. rewrite elem_of_list_filter, elem_rels_of. tauto. Qed.

Lemma class_ok_spec O g oc u :
  class_ok O g oc u = true <->
  forall c, oc = Some c -> exists t, (u, TType t) ∈ g /\ o_csub O t c = true.
Proof.
  destruct oc as [c|]; simpl; [|naive_solver].
  rewrite existsb_exists. split.
  - intros (t & Ht & Hs) c' [= <-]. exists t. split; [|done].
    by apply elem_classes, elem_of_list_In.
  - intros Hc. destruct (Hc c eq_refl) as (t & Ht & Hs). exists t. split; [|done].
    by apply elem_of_list_In, elem_classes.
Qed.

(** ** The mapping *)

Definition rm_in (m : rmapping) (u : uid) (r : rel) : Prop :=
  exists rs, (u, rs) ∈ m /\ r ∈ rs.

Lemma rm_add_in m u r u' r' :
  rm_in (rm_add u r m) u' r' <-> rm_in m u' r' \/ (u' = u /\ r' = r).
Proof.
  unfold rm_in. induction m as [|[w ws] m IH]; simpl.
  - split.
    + intros (rs & Hin & Hr). apply elem_of_list_singleton in Hin. simplify_eq. set_solver.
    + intros [(rs & Hin & _)|[-> ->]]; [by apply elem_of_nil in Hin|].
      exists {[r]}. set_solver.
  - destruct (decide (w = u)) as [->|Hne].
    + split.
      * intros (rs & Hin & Hr). apply elem_of_cons in Hin as [Hin|Hin].
        -- simplify_eq. apply elem_of_union in Hr as [Hr|Hr]; [|set_solver].
           left. exists ws. set_solver.
        -- left. exists rs. set_solver.
      * intros [(rs & Hin & Hr)|[-> ->]].
        -- apply elem_of_cons in Hin as [Hin|Hin].
           ++ simplify_eq. exists (ws ∪ {[r]}). set_solver.
           ++ exists rs. set_solver.
        -- exists (ws ∪ {[r]}). set_solver.
    + split.
      * intros (rs & Hin & Hr). apply elem_of_cons in Hin as [Hin|Hin].
        -- simplify_eq. left. exists ws. set_solver.
        -- destruct (proj1 IH) as [(rs' & Hin' & Hr')|[-> ->]]; [eauto| |by right].
           left. exists rs'. set_solver.
      * intros [(rs & Hin & Hr)|[-> ->]].
        -- apply elem_of_cons in Hin as [Hin|Hin].
           ++ simplify_eq. exists ws. set_solver.
           ++ destruct (proj2 IH) as (rs' & Hin' & Hr'); [left; eauto|].
              exists rs'. set_solver.
        -- destruct (proj2 IH) as (rs' & Hin' & Hr'); [by right|].
           exists rs'. set_solver.
Qed.

Lemma rm_add_keys m u r :
  (rm_add u r m).*1 = if decide (u ∈ m.*1) then m.*1 else m.*1 ++ [u].
Proof.
  induction m as [|[w ws] m IH]; [done|]. cbn [rm_add].
  destruct (decide (w = u)) as [->|Hne]; csimpl.
  - rewrite decide_True; [done|set_solver].
  - rewrite IH. destruct (decide (u ∈ m.*1)); destruct (decide (u ∈ w :: m.*1));
      try done; set_solver.
Qed.

(** The mapping's keys are distinct and each has some relationship. *)
Definition rm_wf (m : rmapping) : Prop :=
  NoDup m.*1 /\ Forall (fun um => snd um <> ∅) m.

Lemma rm_add_wf m u r : rm_wf m -> rm_wf (rm_add u r m).
Proof.
  intros [Hnd Hne]. split.
  - rewrite rm_add_keys. destruct (decide (u ∈ m.*1)); [done|].
    apply NoDup_app. split; [done|]. split; [set_solver|apply NoDup_singleton].
  - clear Hnd. induction m as [|[w ws] m IH]; simpl.
    + constructor; [simpl; set_solver|constructor].
    + inversion Hne; subst. destruct (decide (w = u)).
      * constructor; [simpl; set_solver|done].
      * constructor; [done|by apply IH].
Qed.

Lemma rm_keys_in m u : rm_wf m -> u ∈ m.*1 <-> exists r, rm_in m u r.
Proof.
  intros [_ Hne]. rewrite elem_of_list_fmap. split.
  - intros ([u' rs] & -> & Hin). rewrite Forall_forall in Hne.
    specialize (Hne _ Hin). simpl in Hne.
    apply set_choose_L in Hne as [r Hr]. exists r, rs. done.
  - intros (r & rs & Hin & _). by exists (u, rs).
Qed.

Lemma rm_nonempty m : rm_wf m -> m <> [] <-> exists u r, rm_in m u r.
Proof.
  intros Hwf. split.
  - intros Hm. destruct m as [|[u rs] m]; [done|].
    destruct (proj1 (rm_keys_in _ u Hwf)) as [r Hr]; [set_solver|eauto].
  - intros (u & r & rs & Hin & _) ->. by apply elem_of_nil in Hin.
Qed.

(** ** [get_by_uids], for any order of the relationships *)

Lemma foldl_rm_add_in (hits : list (nat * uid)) r m u' r' :
  rm_in (foldl (fun m iu => rm_add (snd iu) r m) m hits) u' r' <->
  rm_in m u' r' \/ (r' = r /\ u' ∈ hits.*2).
Proof.
  revert m; induction hits as [|[i u] hits IH]; intros m; simpl; [set_solver|].
  rewrite IH, rm_add_in, elem_of_cons. simpl. naive_solver.
Qed.

Lemma foldl_rm_add_wf (hits : list (nat * uid)) r m :
  rm_wf m -> rm_wf (foldl (fun m iu => rm_add (snd iu) r m) m hits).
Proof.
  revert m; induction hits as [|[i u] hits IH]; intros m Hm; simpl; [done|].
  apply IH. by apply rm_add_wf.
Qed.

Lemma elem_imap_pair (uids : list uid) i u :
  (i, u) ∈ imap pair uids <-> uids !! i = Some u.
Proof.
  rewrite elem_of_lookup_imap. split.
  - intros (j & v & Heq & Hl). by simplify_eq.
  - intros Hl. eauto.
Qed.

(** Invariant of the search loop after the relationships [done_]. *)
Definition by_uids_inv (has : rel -> uid -> bool) (uids : list uid)
  (done_ : list rel) (st : gset nat * rmapping) : Prop :=
  let '(nf, m) := st in
  (forall i, i ∈ nf <-> exists u, uids !! i = Some u /\
                        forall r, r ∈ done_ -> has r u = false) /\
  (forall u r, rm_in m u r <-> u ∈ uids /\ r ∈ done_ /\ has r u = true) /\
  rm_wf m.

Lemma by_uids_step_inv has uids done_ st r :
  by_uids_inv has uids done_ st ->
  by_uids_inv has uids (done_ ++ [r]) (by_uids_step has uids st r).
Proof.
  destruct st as [nf m]. intros (Hnf & Hm & Hwf). unfold by_uids_step.
  set (it := match m with [] => _ | _ => _ end).
  (* the iterator always covers every index with a hit *)
  assert (Hit : forall i u, (i, u) ∈ it <-> uids !! i = Some u).
  { intros i u. unfold it. destruct m as [|x m].
    - rewrite elem_of_list_filter, elem_imap_pair. simpl. split; [tauto|].
      intros Hl. split; [|done]. apply Hnf. exists u. split; [done|].
      intros r' Hr'. destruct (has r' u) eqn:E; [|done]. exfalso.
      destruct (proj2 (Hm u r')) as (rs & Hin & _).
      { split; [by eapply elem_of_list_lookup_2|]. done. }
      by apply elem_of_nil in Hin.
    - apply elem_imap_pair. }
  set (hits := filter _ it).
  assert (Hhits : forall i u, (i, u) ∈ hits <-> uids !! i = Some u /\ has r u = true).
  { intros i u. unfold hits. rewrite elem_of_list_filter, Hit. simpl. tauto. }
  clearbody it hits. split; [|split].
  - intros i. rewrite elem_of_difference, elem_of_list_to_set, Hnf. split.
    + intros [(u & Hl & Hf) Hni]. exists u. split; [done|].
      intros r' Hr'. apply elem_of_app in Hr' as [Hr'|Hr']; [by apply Hf|].
      apply elem_of_list_singleton in Hr' as ->.
      destruct (has r u) eqn:E; [|done]. exfalso. apply Hni.
      apply elem_of_list_fmap. exists (i, u). split; [done|]. by apply Hhits.
    + intros (u & Hl & Hf). split.
      * exists u. split; [done|]. intros r' Hr'. apply Hf. set_solver.
      * rewrite elem_of_list_fmap. intros ([i' u'] & -> & Hin).
        apply Hhits in Hin as [Hl' Hh]. simpl in *. simplify_eq.
        rewrite Hf in Hh; [done|set_solver].
  - intros u r'. rewrite foldl_rm_add_in, Hm. rewrite elem_of_app, elem_of_list_singleton.
    rewrite elem_of_list_fmap. split.
    + intros [(Hu & Hr & Hh)|[-> ([i u'] & -> & Hin)]]; [naive_solver|].
      apply Hhits in Hin as [Hl Hh]. simpl. split; [by eapply elem_of_list_lookup_2|].
      naive_solver.
    + intros (Hu & [Hr| ->] & Hh); [naive_solver|]. right. split; [done|].
      apply elem_of_list_lookup in Hu as [i Hi]. exists (i, u). split; [done|].
      by apply Hhits.
  - by apply foldl_rm_add_wf.
Qed.

Lemma get_by_uids_spec has uids rels :
  let '(found, m) := get_by_uids has uids rels in
  length found = length uids /\
  (forall i u, uids !! i = Some u ->
     found !! i = Some (if existsb (fun r => has r u) rels then Some u else None)) /\
  (forall u r, rm_in m u r <-> u ∈ uids /\ r ∈ rels /\ has r u = true) /\
  rm_wf m.
Proof.
  unfold get_by_uids.
  assert (Hgen : forall rels done_ st, by_uids_inv has uids done_ st ->
            by_uids_inv has uids (done_ ++ rels) (foldl (by_uids_step has uids) st rels)).
  { induction rels0 as [|r rels0 IH]; intros done_ st Hst; simpl.
    - by rewrite app_nil_r.
    - apply by_uids_step_inv with (r := r) in Hst. apply IH in Hst.
      by rewrite <- app_assoc in Hst. }
  specialize (Hgen rels [] (list_to_set (seq 0 (length uids)), [])).
  destruct (foldl _ _ rels) as [nf m]. destruct Hgen as (Hnf & Hm & Hwf).
  { split; [|split].
    - intros i. rewrite elem_of_list_to_set, elem_of_seq. split.
      + intros [_ Hi]. destruct (lookup_lt_is_Some_2 uids i) as [u Hu]; [lia|].
        exists u. split; [done|]. intros r Hr. by apply elem_of_nil in Hr.
      + intros (u & Hu & _). apply lookup_lt_Some in Hu. lia.
    - intros u r. split.
      + intros (rs & Hin & _). by apply elem_of_nil in Hin.
      + intros (_ & Hr & _). by apply elem_of_nil in Hr.
    - split; constructor. }
  simpl in *. split; [by rewrite imap_length|]. split; [|done].
  intros i u Hu. rewrite list_lookup_imap, Hu. simpl. f_equal.
  destruct (decide (i ∈ nf)) as [Hi|Hi].
  - apply Hnf in Hi as (u' & Hu' & Hf). simplify_eq.
    replace (existsb _ rels) with false; [done|]. symmetry.
    apply not_true_iff_false. rewrite existsb_exists. intros (r & Hr & Hh).
    rewrite Hf in Hh; [done|]. by apply elem_of_list_In.
  - replace (existsb _ rels) with true; [done|]. symmetry.
    destruct (existsb _ rels) eqn:E; [done|]. exfalso. apply Hi, Hnf.
    exists u. split; [done|]. intros r Hr. destruct (has r u) eqn:Eh; [|done].
    assert (existsb (fun r => has r u) rels = true); [|congruence].
    apply existsb_exists. exists r. split; [by apply elem_of_list_In|done].
Qed.

(** ** [get_by_oclass] *)

Lemma by_oclass_inner (ok : uid -> bool) r us m u' r' :
  rm_in (foldl (fun m u => if ok u then rm_add u r m else m) m us) u' r' <->
  rm_in m u' r' \/ (r' = r /\ u' ∈ us /\ ok u' = true).
Proof.
  revert m; induction us as [|u us IH]; intros m; simpl; [set_solver|].
  rewrite IH, elem_of_cons. destruct (ok u) eqn:E; [rewrite rm_add_in|].
  - split.
    + intros [[?|[-> ->]]|(-> & ? & ?)]; auto.
    + intros [?|(-> & [->|?] & ?)]; auto.
  - split.
    + intros [?|(-> & ? & ?)]; auto.
    + intros [?|(-> & [->|?] & ?)]; auto. congruence.
Qed.

Lemma by_oclass_inner_wf (ok : uid -> bool) r us m :
  rm_wf m -> rm_wf (foldl (fun m u => if ok u then rm_add u r m else m) m us).
Proof.
  revert m; induction us as [|u us IH]; intros m Hm; simpl; [done|].
  apply IH. destruct (ok u); [by apply rm_add_wf|done].
Qed.

Lemma get_by_oclass_spec tgts ok rels :
  rm_wf (get_by_oclass tgts ok rels) /\
  forall u r, rm_in (get_by_oclass tgts ok rels) u r <->
              r ∈ rels /\ u ∈ tgts r /\ ok u = true.
Proof.
  unfold get_by_oclass.
  assert (Hgen : forall m, rm_wf m ->
    let m' := foldl (fun m r => foldl (fun m u => if ok u then rm_add u r m else m) m (tgts r))
                m rels in
    rm_wf m' /\ forall u r, rm_in m' u r <-> rm_in m u r \/ (r ∈ rels /\ u ∈ tgts r /\ ok u = true)).
  { induction rels as [|r0 rels IH]; intros m Hm; simpl; [set_solver|].
    destruct (IH (foldl (fun m u => if ok u then rm_add u r0 m else m) m (tgts r0)))
      as [Hwf Hin].
    { by apply by_oclass_inner_wf. }
    split; [done|]. intros u r. rewrite Hin, by_oclass_inner, elem_of_cons. naive_solver. }
  destruct (Hgen []) as [Hwf Hin]; [split; constructor|].
  split; [done|]. intros u r. rewrite Hin. split; [|tauto].
  intros [(rs & Hi & _)|?]; [by apply elem_of_nil in Hi|done].
Qed.

(** ** [get_] *)

Lemma rel_ok_spec O rf r :
  rel_ok O rf r = true <-> forall sup, rf = Some sup -> o_sub O r sup = true.
Proof. destruct rf as [sup|]; simpl; naive_solver. Qed.

Lemma get__spec O s a uids rf oc :
  (uids <> [] /\ oc <> None /\ get_ O (gr s) a uids rf oc = Err TypeError) \/
  ((uids = [] \/ oc = None) /\
   exists found m,
     get_ O (gr s) a uids rf oc = Ok (found, m) /\
     rm_wf m /\
     (forall b r, rm_in m b r <-> matching O s a uids rf oc b r) /\
     (uids <> [] -> length found = length uids /\
        forall i b, uids !! i = Some b ->
          (found !! i = Some (Some b) /\ (exists r, matching O s a uids rf oc b r)) \/
          (found !! i = Some None /\ ~ exists r, matching O s a uids rf oc b r)) /\
     (uids = [] -> found = (fun um => Some (fst um)) <$> m)).
Proof.
  destruct (decide (uids <> [] /\ oc <> None)) as [[Hu Hoc]|Hn].
  { left. split; [done|]. split; [done|]. unfold get_.
    destruct uids; [done|]. by destruct oc. }
  right. assert (Hor : uids = [] \/ oc = None).
  { destruct uids; [by left|]. destruct oc; [|by right]. exfalso. apply Hn. naive_solver. }
  split; [done|].
  assert (Heq : get_ O (gr s) a uids rf oc =
    match consider O (gr s) a rf, uids with
    | [], _ => Ok (map (fun _ => None) uids, [])
    | _, [] => let m := get_by_oclass (targets (gr s) a) (class_ok O (gr s) oc)
                          (consider O (gr s) a rf) in
               Ok (map (fun um => Some (fst um)) m, m)
    | _, _ => Ok (get_by_uids (fun r v => linked (gr s) a r v) uids (consider O (gr s) a rf))
    end).
  { unfold get_. destruct Hor as [->| ->]; [done|]. by destruct uids. }
  rewrite Heq. clear Heq Hn.
  pose proof (elem_consider O (gr s) a rf) as Hc.
  destruct (consider O (gr s) a rf) as [|r0 rels0] eqn:Ec.
  { assert (Hno : forall b r, ~ matching O s a uids rf oc b r).
    { intros b r (Hcon & Hrf & _ & _).
      assert (Hr : r ∈ @nil rel) by (apply Hc; split; [by exists b|by apply rel_ok_spec]).
      by apply elem_of_nil in Hr. }
    exists (map (fun _ => None) uids), []. split; [by destruct uids|].
    split; [split; constructor|]. split; [|split].
    - intros b r. split; [|by intros ?%Hno]. intros (rs & Hin & _). by apply elem_of_nil in Hin.
    - intros _. split; [by rewrite map_length|]. intros i b Hi. right.
      split; [|intros [r Hr]; by apply Hno in Hr].
      change (map (fun _ : uid => @None uid) uids) with ((fun _ => None) <$> uids : list (option uid)).
      by rewrite list_lookup_fmap, Hi.
    - by intros ->. }
  set (rels := r0 :: rels0) in *.
  destruct uids as [|u0 uids0].
  - eexists _, _. split; [done|].
    destruct (get_by_oclass_spec (targets (gr s) a) (class_ok O (gr s) oc) rels) as [Hwf Hin].
    split; [done|]. split; [|split; [done|done]].
    intros b r. rewrite Hin, Hc, elem_targets, class_ok_spec, rel_ok_spec.
    unfold matching, connected. naive_solver.
  - destruct Hor as [|Hoc]; [done|]. subst oc. set (uids := u0 :: uids0) in *.
    pose proof (get_by_uids_spec (fun r v => linked (gr s) a r v) uids rels) as Hs.
    destruct (get_by_uids _ uids rels) as [found m]. destruct Hs as (Hlen & Hpos & Hin & Hwf).
    assert (Hm : forall b r, b ∈ uids -> (r ∈ rels /\ linked (gr s) a r b = true) <->
                                         matching O s a uids rf None b r).
    { intros b r Hb. rewrite Hc, rel_ok_spec. unfold linked, matching, connected.
      rewrite bool_decide_eq_true. naive_solver. }
    exists found, m. split; [done|]. split; [done|]. split; [|split; [|done]].
    + intros b r. rewrite Hin. split.
      * intros (Hb & Hr & Hl). by apply Hm.
      * intros Hma. assert (b ∈ uids) as Hb by (apply Hma; done). split; [done|]. by apply Hm.
    + intros _. split; [done|]. intros i b Hi. rewrite (Hpos i b Hi).
      assert (Hb : b ∈ uids) by (by eapply elem_of_list_lookup_2).
      destruct (existsb _ rels) eqn:E.
      * left. split; [done|]. apply existsb_exists in E as (r & Hr & Hl). exists r.
        apply Hm; [done|]. split; [by apply elem_of_list_In|done].
      * right. split; [done|]. intros [r Hr]. apply Hm in Hr as [Hr Hl]; [|done].
        apply not_true_iff_false in E. apply E, existsb_exists. exists r.
        split; [by apply elem_of_list_In|done].
Qed.

(** ** Writing *)

Lemma add_direct_spec g a r b t :
  t ∈ add_direct g a r b <-> t ∈ g \/ t = (a, TLink r b).
Proof.
  unfold add_direct. rewrite !elem_of_union, elem_of_singleton, elem_of_list_to_set.
  split; [|tauto]. intros [[?|?]|Hin]; [tauto|tauto|].
  apply elem_of_list_In, in_map_iff in Hin as (c & <- & Hin).
  left. by apply elem_classes, elem_of_list_In.
Qed.

(** The links that a successful part of add() creates. *)
Lemma add_spec O s a r bs s' rv :
  add O s a r bs = (s', rv) ->
  reg s' = reg s /\ root s' = root s /\
  exists done_ rest,
    bs = done_ ++ rest /\
    (forall t, t ∈ gr s' <-> t ∈ gr s \/ exists b, b ∈ done_ /\
                 (t = (a, TLink r b) \/ t = (b, TLink (o_inv O r) a))) /\
    match rv with
    | Ok l => l = bs /\ rest = []
    | Err e => e = ValueError /\
               exists b rest', rest = b :: rest' /\ connected s' a r b
    end.
Proof.
  revert s s' rv; induction bs as [|b bs IH]; intros s s' rv Hadd; simpl in Hadd.
  { simplify_eq. split; [done|]. split; [done|]. exists [], [].
    split; [done|]. split; [set_solver|done]. }
  destruct (linked (gr s) a r b) eqn:El.
  { simplify_eq. split; [done|]. split; [done|]. exists [], (b :: bs).
    split; [done|]. split; [set_solver|]. split; [done|]. exists b, bs.
    split; [done|]. unfold linked in El. by apply bool_decide_eq_true in El. }
  destruct (add O _ a r bs) as [s1 res1] eqn:E1. simplify_eq.
  apply IH in E1 as (Hreg & Hroot & done_ & rest & -> & Ht & Hr).
  split; [done|]. split; [done|]. exists (b :: done_), rest. split; [done|]. split.
  - intros t. rewrite Ht. simpl. rewrite !add_direct_spec.
    split.
    + intros [[[?|?]|?]|(b' & Hb' & ?)]; [tauto| | |];
        right; [exists b; set_solver|exists b; set_solver|exists b'; set_solver].
    + intros [?|(b' & Hb' & Ho)]; [tauto|]. apply elem_of_cons in Hb' as [->|Hb'].
      * left. tauto.
      * right. eauto.
  - destruct res1 as [l|e]; simpl in *; naive_solver.
Qed.

(** add() raises iff an argument is already connected or is repeated. *)
Lemma add_error_iff O s a r bs :
  (exists e, snd (add O s a r bs) = Err e) <->
  exists l1 b l2, bs = l1 ++ b :: l2 /\ (connected s a r b \/ b ∈ l1).
Proof.
  split.
  - intros [e He]. destruct (add O s a r bs) as [s' rv] eqn:E. simpl in He. subst rv.
    apply add_spec in E as (_ & _ & done_ & rest & -> & Ht & -> & b & rest' & -> & Hc).
    exists done_, b, rest'. split; [done|]. unfold connected in Hc.
    apply Ht in Hc as [Hc|(b' & Hb' & [Heq|Heq])]; [by left|right|right].
    + by simplify_eq.
    + by simplify_eq.
  - intros (l1 & b & l2 & -> & Hb).
    revert s Hb. induction l1 as [|c l1 IH]; intros s Hb; simpl.
    + destruct Hb as [Hb|Hb]; [|by apply elem_of_nil in Hb].
      unfold linked. rewrite bool_decide_true by done. eauto.
    + destruct (linked (gr s) a r c) eqn:El; [eauto|].
      set (s1 := set_gr s _). destruct (IH s1) as [e He].
      { destruct Hb as [Hb|Hb].
        - left. unfold connected, s1. simpl. rewrite !add_direct_spec. auto.
        - apply elem_of_cons in Hb as [->|Hb]; [|by right].
          left. unfold connected, s1. simpl. rewrite !add_direct_spec. auto. }
      destruct (add O s1 a r (l1 ++ b :: l2)) as [s2 r2]. simpl in *. subst r2. eauto.
Qed.

(** ** remove *)

Lemma remove_rels_spec O g a b rs g' e :
  remove_rels O g a b true rs = (g', e) ->
  e = None /\
  forall t, t ∈ g' <-> t ∈ g /\ forall r, r ∈ rs ->
              t <> (a, TLink r b) /\ t <> (b, TLink (o_inv O r) a).
Proof.
  revert g; induction rs as [|r rs IH]; intros g Hr; simpl in Hr.
  - simplify_eq. split; [done|]. intros t. split; [|tauto].
    intros Ht. split; [done|]. intros r Hr. by apply elem_of_nil in Hr.
  - apply IH in Hr as [-> Ht]. split; [done|]. intros t. rewrite Ht.
    unfold remove_direct. rewrite !elem_of_difference, !elem_of_singleton.
    split.
    + intros [[[Hg H1] H2] Hn]. split; [done|]. intros r' Hr.
      apply elem_of_cons in Hr as [->|Hr]; [done|by apply Hn].
    + intros [Hg Hn]. destruct (Hn r) as [H1 H2]; [left|].
      split; [done|]. intros r' Hr. apply Hn. by right.
Qed.

Lemma remove_all_spec O s a m s' e :
  (forall b, b ∈ m.*1 -> b ∈ reg s) ->
  remove_all O s a m = (s', e) ->
  e = None /\ reg s' = reg s /\ root s' = root s /\
  forall t, t ∈ gr s' <-> t ∈ gr s /\ forall b r, rm_in m b r ->
              t <> (a, TLink r b) /\ t <> (b, TLink (o_inv O r) a).
Proof.
  revert s; induction m as [|[b rs] m IH]; intros s Hreg Hr; simpl in Hr.
  - simplify_eq. split; [done|]. split; [done|]. split; [done|].
    intros t. split; [|tauto]. intros Ht. split; [done|].
    intros b r (rs & Hin & _). by apply elem_of_nil in Hin.
  - rewrite bool_decide_true in Hr by (apply Hreg; set_solver).
    destruct (remove_rels O (gr s) a b true (elements rs)) as [g1 e1] eqn:E1.
    apply remove_rels_spec in E1 as [-> Hg1].
    apply IH in Hr as (-> & Hr1 & Hr2 & Ht).
    2:{ intros b' Hb'. simpl. apply Hreg. set_solver. }
    split; [done|]. split; [done|]. split; [done|].
    intros t. rewrite Ht. simpl. rewrite Hg1.
    split.
    + intros [[Hg Hh] Hm]. split; [done|]. intros b' r (rs' & Hi & Hr').
      apply elem_of_cons in Hi as [Hi|Hi].
      * inversion Hi; subst. apply Hh. by apply elem_of_elements.
      * apply Hm. by exists rs'.
    + intros [Hg Hm]. split; [split; [done|]|].
      * intros r Hr'. apply elem_of_elements in Hr'. apply Hm. exists rs. split; [left|done].
      * intros b' r (rs' & Hi & Hr'). apply Hm. exists rs'. split; [by right|done].
Qed.

(** ** The invariant *)

Definition sess_inv (O : onto) (s : sess) : Prop := bidirectional O s /\ closed s.

Lemma linked_in_reg O s a r b : sess_inv O s -> connected s a r b -> b ∈ reg s.
Proof. intros [Hb Hc] Hl. apply Hb in Hl. by eapply Hc. Qed.

(** remove(): exact effect. *)
Lemma remove_spec O s a uids rf oc :
  sess_inv O s ->
  let '(s', e) := remove O s a uids rf oc in
  (e = Some TypeError /\ uids <> [] /\ oc <> None /\ s' = s) \/
  (e = Some RuntimeError /\ (uids = [] \/ oc = None) /\ s' = s /\
   forall b r, ~ matching O s a uids rf oc b r) \/
  (e = None /\ (exists b r, matching O s a uids rf oc b r) /\
   reg s' = reg s /\ root s' = root s /\
   forall t, t ∈ gr s' <->
     t ∈ gr s /\ forall b r, matching O s a uids rf oc b r ->
                   t <> (a, TLink r b) /\ t <> (b, TLink (o_inv O r) a)).
Proof.
  intros Hinv. unfold remove.
  destruct (get__spec O s a uids rf oc) as [(Hu & Hoc & ->)|(Hor & found & m & -> & Hwf & Hin & _)].
  { left. done. }
  destruct (decide (m = [])) as [->|Hm].
  { right. left. split; [done|]. split; [done|]. split; [done|]. intros b r Hm.
    apply Hin in Hm as (rs & Hi & _). by apply elem_of_nil in Hi. }
  assert (Heq : match m with [] => (s, Some RuntimeError) | _ => remove_all O s a m end
                = remove_all O s a m) by by destruct m.
  rewrite Heq. clear Heq.
  destruct (remove_all O s a m) as [s' e] eqn:E.
  apply remove_all_spec in E as (-> & Hr & Hro & Ht).
  2:{ intros b Hb. apply rm_keys_in in Hb as [r Hr]; [|done].
      apply Hin in Hr. eapply linked_in_reg; [done|]. apply Hr. }
  right. right. split; [done|]. split.
  { apply rm_nonempty in Hm as (b & r & Hbr); [|done]. exists b, r. by apply Hin. }
  split; [done|]. split; [done|]. intros t. rewrite Ht.
  setoid_rewrite Hin. done.
Qed.

(** ** set_attr, create, delete *)

Lemma is_attr_of_spec u a t : is_attr_of u a t = true <-> exists l, t = (u, TAttr a l).
Proof.
  destruct t as [u' [r o|c|a' l]]; simpl; try (split; [done|intros [l Hl]; done]).
  rewrite andb_true_iff, !bool_decide_eq_true. split.
  - intros [-> ->]. eauto.
  - intros [l' Hl]. by simplify_eq.
Qed.

Lemma set_attr_spec s u a l t :
  t ∈ gr (set_attr s u a l) <->
  t = (u, TAttr a l) \/ (t ∈ gr s /\ forall l', t <> (u, TAttr a l')).
Proof.
  unfold set_attr. simpl. rewrite elem_of_union, elem_of_filter, elem_of_singleton.
  split.
  - intros [[Hf Ht]|Ht]; [right|by left]. split; [done|]. intros l' ->.
    rewrite (proj2 (is_attr_of_spec u a _)) in Hf; [done|eauto].
  - intros [Ht|[Ht Hn]]; [by right|left]. split; [|done].
    destruct (is_attr_of u a t) eqn:E; [|done].
    apply is_attr_of_spec in E as [l' ->]. by destruct (Hn l').
Qed.

Lemma elem_attr_values g u a l : l ∈ attr_values g u a <-> (u, TAttr a l) ∈ g.
Proof.
  unfold attr_values. rewrite elem_of_list_omap. split.
  - intros ([s p] & Hin & Hf). apply elem_of_elements in Hin.
    destruct p; simplify_option_eq. naive_solver.
  - intros Hv. exists (u, TAttr a l). split; [by apply elem_of_elements|].
    rewrite decide_True; done.
Qed.

Lemma omap_NoDup {A B} (f : A -> option B) (l : list A) :
  (forall x y b, f x = Some b -> f y = Some b -> x = y) ->
  NoDup l -> NoDup (omap f l).
Proof.
  intros Hinj. induction 1 as [|x l Hx Hl IH]; [constructor|].
  csimpl. destruct (f x) as [b|] eqn:E; [|done]. constructor; [|done].
  intros (y & Hy & Hfy)%elem_of_list_omap. by rewrite (Hinj x y b) in Hx.
Qed.

Lemma NoDup_attr_values g u a : NoDup (attr_values g u a).
Proof.
  apply omap_NoDup; [|apply NoDup_elements].
  intros [s [r o|c|a1 l1]] [s' [r' o'|c'|a2 l2]] b; simpl; try done.
  intros H1 H2. simplify_option_eq. naive_solver.
Qed.

Lemma NoDup_elem_singleton {A} (l : list A) x :
  NoDup l -> (forall y, y ∈ l <-> y = x) -> l = [x].
Proof.
  intros Hnd H. destruct l as [|y l].
  - assert (x ∈ @nil A) as Hx by by apply H. by apply elem_of_nil in Hx.
  - assert (y = x) as -> by (apply H; left). f_equal.
    destruct l as [|z l]; [done|]. exfalso. apply NoDup_cons in Hnd as [Hn _].
    apply Hn. assert (z = x) as -> by (apply H; right; left). left.
Qed.

Lemma set_attr_values s u a l : attr_values (gr (set_attr s u a l)) u a = [l].
Proof.
  apply NoDup_elem_singleton; [apply NoDup_attr_values|].
  intros y. rewrite elem_attr_values, set_attr_spec. split; [|intros ->; by left].
  intros [Heq|[_ Hn]]; [by simplify_eq|by destruct (Hn y)].
Qed.

Lemma delete_triples_spec s u :
  u ∈ reg s ->
  exists s', delete_triples s u = (s', None) /\ reg s' = reg s ∖ {[u]} /\
             root s' = root s /\ forall t, t ∈ gr s' <-> t ∈ gr s /\ fst t <> u.
Proof.
  intros Hu. unfold delete_triples. rewrite decide_True by done.
  eexists. split; [done|]. split; [done|]. split; [done|].
  intros t. simpl. rewrite elem_of_filter. tauto.
Qed.

(** [get] without uids. *)
Lemma load_back_id (l : list (option uid)) :
  load_back l (omap (fun x => Some <$> x) l) = l.
Proof.
  induction l as [|[u|] l IH]; csimpl; [done| |]; by rewrite IH.
Qed.

Lemma load_cuds_objects_id s l :
  (forall u, Some u ∈ l -> u ∈ reg s) -> load_cuds_objects s l = l.
Proof.
  intros Hl. unfold load_cuds_objects, load.
  replace (map _ (omap id l)) with (omap (fun x : option uid => Some <$> x) l).
  { apply load_back_id. }
  induction l as [|[u|] l IH]; csimpl; [done| |].
  - rewrite decide_True by (apply Hl; left). f_equal. apply IH.
    intros u' Hu'. apply Hl. by right.
  - apply IH. intros u' Hu'. apply Hl. by right.
Qed.

Lemma get_all_spec O s a rf oc :
  sess_inv O s ->
  exists bs, get O s a [] rf oc = Ok (Many (Some <$> bs)) /\ NoDup bs /\
    forall b, b ∈ bs <-> exists r, matching O s a [] rf oc b r.
Proof.
  intros Hinv. unfold get.
  destruct (get__spec O s a [] rf oc) as [(Hu & _)|(_ & found & m & -> & Hwf & Hin & _ & Hf)];
    [done|].
  specialize (Hf eq_refl). subst found.
  rewrite load_cuds_objects_id.
  - exists (m.*1). split; [|split].
    + by rewrite <- list_fmap_compose.
    + apply Hwf.
    + intros b. rewrite rm_keys_in by done. by setoid_rewrite Hin.
  - intros u Hu. apply elem_of_list_fmap in Hu as ([u' rs] & Heq & Hu).
    injection Heq as ->. simpl in *.
    assert (u' ∈ m.*1) as Hk by (apply elem_of_list_fmap; by exists (u', rs)).
    apply rm_keys_in in Hk as [r Hr]; [|done]. apply Hin in Hr.
    eapply linked_in_reg; [done|apply Hr].
Qed.

Lemma get_uids_spec O s a uids rf :
  sess_inv O s -> uids <> [] ->
  exists found,
    get O s a uids rf None =
      Ok (match uids, found with [_], x :: _ => One x | _, _ => Many found end) /\
    length found = length uids /\
    forall i b, uids !! i = Some b ->
      (found !! i = Some (Some b) /\ exists r, matching O s a [] rf None b r) \/
      (found !! i = Some None /\ ~ exists r, matching O s a [] rf None b r).
Proof.
  intros Hinv Hne. unfold get.
  destruct (get__spec O s a uids rf None)
    as [(_ & ? & _)|(_ & found & m & -> & Hwf & Hin & Hpos & _)]; [done|].
  destruct (Hpos Hne) as [Hlen Hp].
  assert (Hmm : forall b, b ∈ uids ->
     (exists r, matching O s a uids rf None b r) <-> exists r, matching O s a [] rf None b r).
  { intros b Hb. split; intros [r (H1 & H2 & H3 & H4)]; exists r; repeat split; try done. }
  rewrite load_cuds_objects_id.
  - exists found. split; [|split; [done|]].
    + destruct uids as [|u [|u' us]]; [done| |by destruct found].
      destruct found as [|x [|y f]]; done.
    + intros i b Hi. assert (b ∈ uids) by (by eapply elem_of_list_lookup_2).
      destruct (Hp i b Hi) as [[? Hm]|[? Hm]]; [left|right]; (split; [done|]).
      * by apply Hmm.
      * by rewrite <- Hmm.
  - intros u Hu. apply elem_of_list_lookup in Hu as [i Hi].
    destruct (lookup_lt_is_Some_2 uids i) as [b Hb].
    { apply lookup_lt_Some in Hi. lia. }
    destruct (Hp i b Hb) as [[Hf [r Hm]]|[Hf _]]; rewrite Hf in Hi; simplify_eq.
    eapply linked_in_reg; [done|apply Hm].
Qed.

(** All relationships in use are below cuba.relationship. *)
Definition covered (O : onto) (s : sess) : Prop :=
  forall a r b, connected s a r b -> o_sub O r (o_relationship O) = true.

Lemma delete_spec O s u :
  involutive O -> sess_inv O s -> u ∈ reg s -> covered O s ->
  exists s', delete_cuds_object O s u = (s', None) /\
    reg s' = reg s ∖ {[u]} /\ root s' = root s /\
    forall t, t ∈ gr s' <->
      t ∈ gr s /\ fst t <> u /\ (forall b r, t <> (b, TLink r u)).
Proof.
  intros Hivl Hinv Hu Hcov.
  destruct (get_all_spec O s u (Some (o_relationship O)) None Hinv) as (bs & Hget & _ & Hbs).
  unfold delete_cuds_object. rewrite Hget.
  assert (Hm : forall b r, matching O s u [] (Some (o_relationship O)) None b r <->
                           connected s u r b).
  { intros b r. split; [intros H; apply H|]. intros Hc. split; [done|].
    split; [|split; done]. intros sup [= <-]. by eapply Hcov. }
  destruct bs as [|b0 bs].
  - simpl. destruct (delete_triples_spec s u Hu) as (s' & Hd & Hr & Hro & Ht).
    exists s'. split; [done|]. split; [done|]. split; [done|].
    intros t. rewrite Ht. split; [|tauto]. intros [Hin Hf]. split; [done|].
    split; [done|]. intros b r ->. destruct Hinv as [Hb _].
    apply (Hb b r u) in Hin.
    assert (b ∈ @nil uid) as Hn by (apply Hbs; exists (o_inv O r); by apply Hm).
    by apply elem_of_nil in Hn.
  - simpl. pose proof (remove_spec O s u [] (Some (o_relationship O)) None Hinv) as Hrm.
    destruct (remove O s u [] (Some (o_relationship O)) None) as [s1 e1].
    destruct Hrm as [(_ & ? & _)|[(_ & _ & _ & Hno)|(-> & _ & Hr & Hro & Ht)]]; [done| |].
    { exfalso. assert (b0 ∈ b0 :: bs) as Hb0 by left. apply Hbs in Hb0 as [r Hr].
      by apply Hno in Hr. }
    destruct (delete_triples_spec s1 u) as (s' & Hd & Hr' & Hro' & Ht').
    { by rewrite Hr. }
    exists s'. rewrite Hd. split; [done|]. split; [by rewrite Hr', Hr|].
    split; [by rewrite Hro', Hro|]. intros t. rewrite Ht', Ht. split.
    + intros [[Hin Hn] Hf]. split; [done|]. split; [done|]. intros b r ->.
      destruct Hinv as [Hb _]. apply (Hb b r u) in Hin as Hin'.
      pose proof (Hm b (o_inv O r)) as Hmm. destruct (Hn b (o_inv O r)) as [_ Hn2]; [by apply Hmm|].
      apply Hn2. by rewrite (Hivl r).
    + intros (Hin & Hf & Hl). split; [split; [done|]|done].
      intros b r _. split; [|apply Hl]. intros ->. by apply Hf.
Qed.

(** ** Preservation of the invariant *)

Lemma add_inv O s a r bs :
  involutive O -> sess_inv O s -> a ∈ reg s -> Forall (fun b => b ∈ reg s) bs ->
  sess_inv O (fst (add O s a r bs)).
Proof.
  intros Hivl [Hb Hc] Ha Hbs. destruct (add O s a r bs) as [s' rv] eqn:E. simpl.
  apply add_spec in E as (Hr & _ & done_ & rest & -> & Ht & _).
  apply Forall_app in Hbs as [Hdone _]. rewrite Forall_forall in Hdone.
  split.
  - assert (Hd : forall x q y, connected s' x q y -> connected s' y (o_inv O q) x).
    { unfold connected. intros x q y Hx. apply Ht in Hx as [Hx|(b & Hb' & Heq)].
      - apply Ht. left. by apply Hb in Hx.
      - apply Ht. right. exists b. split; [done|].
        destruct Heq as [Heq|Heq]; inversion Heq; subst; [by right|left].
        by rewrite Hivl. }
    intros x q y. split; [apply Hd|]. intros Hx. apply Hd in Hx. by rewrite Hivl in Hx.
  - intros u p Hu. rewrite Hr. apply Ht in Hu as [Hu|(b & Hb' & [Heq|Heq])].
    + by eapply Hc.
    + by inversion Heq; subst.
    + inversion Heq; subst. by apply Hdone.
Qed.

Lemma remove_inv O s a uids rf oc :
  involutive O -> sess_inv O s -> sess_inv O (fst (remove O s a uids rf oc)).
Proof.
  intros Hivl Hinv. pose proof (remove_spec O s a uids rf oc Hinv) as Hs.
  destruct (remove O s a uids rf oc) as [s' e]. simpl.
  destruct Hs as [(_ & _ & _ & ->)|[(_ & _ & -> & _)|(_ & _ & Hr & _ & Ht)]]; [done|done|].
  destruct Hinv as [Hb Hc]. split.
  - assert (Hd : forall x q y, connected s' x q y -> connected s' y (o_inv O q) x).
    { unfold connected. intros x q y Hx. apply Ht in Hx as [Hx Hn]. apply Ht.
      split; [by apply Hb in Hx|]. intros b r Hm. destruct (Hn b r Hm) as [H1 H2].
      split; intros Heq.
      - injection Heq as -> Hq ->. apply H2. by rewrite <- Hq, Hivl.
      - injection Heq as -> Hq ->. apply H1. by rewrite <- (Hivl q), Hq, Hivl. }
    intros x q y. split; [apply Hd|]. intros Hx. apply Hd in Hx. by rewrite Hivl in Hx.
  - intros u p Hu. rewrite Hr. apply Ht in Hu as [Hu _]. by eapply Hc.
Qed.

Lemma delete_inv O s u :
  involutive O -> sess_inv O s -> u ∈ reg s -> covered O s ->
  sess_inv O (fst (delete_cuds_object O s u)).
Proof.
  intros Hivl Hinv Hu Hcov.
  destruct (delete_spec O s u Hivl Hinv Hu Hcov) as (s' & -> & Hr & _ & Ht). simpl.
  destruct Hinv as [Hb Hc]. split.
  - assert (Hd : forall x q y, connected s' x q y -> connected s' y (o_inv O q) x).
    { unfold connected. intros x q y Hx. apply Ht in Hx as (Hx & Hf & Hl). apply Ht.
      split; [by apply Hb in Hx|]. split.
      - simpl. intros ->. by apply (Hl x q).
      - intros b r Heq. injection Heq as -> Hq ->. by apply Hf. }
    intros x q y. split; [apply Hd|]. intros Hx. apply Hd in Hx. by rewrite Hivl in Hx.
  - intros v p Hv. apply Ht in Hv as (Hv & Hf & _). rewrite Hr.
    apply elem_of_difference. split; [by eapply Hc|]. rewrite elem_of_singleton. done.
Qed.

Lemma set_attr_inv O s u a l :
  sess_inv O s -> u ∈ reg s -> sess_inv O (set_attr s u a l).
Proof.
  intros [Hb Hc] Hu. split.
  - assert (Hl : forall x q y, connected (set_attr s u a l) x q y <-> connected s x q y).
    { intros x q y. unfold connected. rewrite set_attr_spec. naive_solver. }
    intros x q y. rewrite !Hl. apply Hb.
  - intros v p Hv. apply set_attr_spec in Hv as [Hv|[Hv _]]; [by inversion Hv; subst|].
    by eapply Hc.
Qed.

Lemma create_spec s u c attrs :
  u <> 0%N ->
  exists s', create s u c attrs = (s', None) /\ reg s' = reg s ∪ {[u]} /\
    forall t, t ∈ gr s' <-> t ∈ gr s \/ t = (u, TType c) \/
                exists a l, (a, l) ∈ attrs /\ t = (u, TAttr a l).
Proof.
  intros Hu. unfold create. rewrite decide_False by done. eexists. split; [done|].
  split; [done|]. intros t. simpl.
  rewrite !elem_of_union, elem_of_singleton, elem_of_list_to_set, elem_of_list_In, in_map_iff.
  split.
  - intros [[?|?]|([a l] & <- & Hin)]; [tauto|tauto|]. right. right. exists a, l.
    split; [by apply elem_of_list_In|done].
  - intros [?|[?|(a & l & Hin & ->)]]; [tauto|tauto|]. right. exists (a, l).
    split; [done|]. by apply elem_of_list_In.
Qed.

Lemma create_inv O s u c attrs : sess_inv O s -> sess_inv O (fst (create s u c attrs)).
Proof.
  intros [Hb Hc]. destruct (decide (u = 0%N)) as [->|Hu]; [by split|].
  destruct (create_spec s u c attrs Hu) as (s' & -> & Hr & Ht). simpl. split.
  - assert (Hl : forall x q y, connected s' x q y <-> connected s x q y).
    { intros x q y. unfold connected. rewrite Ht. split; [|by left].
      intros [?|[?|(a & l & _ & ?)]]; done. }
    intros x q y. rewrite !Hl. apply Hb.
  - intros v p Hv. rewrite Hr. apply elem_of_union.
    apply Ht in Hv as [Hv|[Hv|(a & l & _ & Hv)]]; [left; by eapply Hc| |];
      right; inversion Hv; subst; by apply elem_of_singleton.
Qed.

(** Links only appear through add(). *)
Lemma covered_step O s o :
  sess_inv O s -> covered O s ->
  (forall a r bs, o = Add a r bs -> o_sub O r (o_relationship O) = true /\
     o_sub O (o_inv O r) (o_relationship O) = true) ->
  op_valid s o -> involutive O -> covered O (step O s o).
Proof.
  intros Hinv Hcov Hadd Hval Hivl a r b. unfold connected. destruct o as [u c attrs|a0 r0 bs|a0 uids rf oc|u a0 l|u]; simpl.
  - destruct (decide (u = 0%N)) as [->|Hu]; [simpl; apply Hcov|].
    destruct (create_spec s u c attrs Hu) as (s' & -> & Hr & Ht). simpl. intros Hl.
    apply Ht in Hl as [Hl|[Hl|(a1 & l & _ & Hl)]]; [by eapply Hcov|done|done].
  - destruct (add O s a0 r0 bs) as [s' rv] eqn:E. simpl. intros Hl.
    apply add_spec in E as (_ & _ & done_ & rest & _ & Ht & _).
    destruct (Hadd a0 r0 bs eq_refl) as [H1 H2].
    apply Ht in Hl as [Hl|(b' & _ & [Hl|Hl])]; [by eapply Hcov| |]; by inversion Hl; subst.
  - pose proof (remove_spec O s a0 uids rf oc Hinv) as Hs.
    destruct (remove O s a0 uids rf oc) as [s' e]. simpl.
    destruct Hs as [(_ & _ & _ & ->)|[(_ & _ & -> & _)|(_ & _ & Hr & _ & Ht)]];
      [apply Hcov|apply Hcov|]. intros Hl. apply Ht in Hl as [Hl _]. by eapply Hcov.
  - intros Hl. apply (set_attr_spec s u a0 l) in Hl as [Hl|[Hl _]]; [done|by eapply Hcov].
  - inversion Hval; subst.
    destruct (delete_spec O s u Hivl Hinv) as (s' & -> & _ & _ & Ht); [done|done|].
    simpl. intros Hl. apply Ht in Hl as [Hl _]. by eapply Hcov.
Qed.

Lemma step_inv O s o :
  involutive O -> sess_inv O s -> covered O s -> op_valid s o -> sess_inv O (step O s o).
Proof.
  intros Hivl Hinv Hcov Hval. destruct o as [u c attrs|a0 r0 bs|a0 uids rf oc|u a0 l|u]; simpl.
  - by apply create_inv.
  - inversion Hval; subst. by apply add_inv.
  - by apply remove_inv.
  - inversion Hval; subst. by apply set_attr_inv.
  - inversion Hval; subst. by apply delete_inv.
Qed.

Lemma reachable_inv O s :
  involutive O -> (forall r, o_sub O r (o_relationship O) = true) ->
  reachable O s -> sess_inv O s.
Proof.
  intros Hivl Hall. induction 1 as [|s o Hr IH Hval].
  - split; [done|]. intros u p Hp. simpl in Hp. by apply elem_of_empty in Hp.
  - apply step_inv; [done|done| |done]. intros a r b _. apply Hall.
Qed.
