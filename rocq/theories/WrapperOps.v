(** Refinement, continued: every operation on a wrapper session does to the
    abstract session ([abs], WrapperRefine.v) what the same operation of an
    in-memory session (Cuds.v) does, and gives the same answer. *)
From stdpp Require Import base sets list gmap countable.
From Verif Require Import Prelude Cuds CudsProofs Wrapper WrapperProofs WrapperRefine.

(** ** The single writes *)
Lemma link_writes a r b :
  writes (fun s => set_gr s (add_direct (gr s) a r b)) a (fun _ => True) (fun p => p = TLink r b).
Proof.
  intros s. split; [done|]. split; [done|]. intros x p. simpl. rewrite add_direct_spec.
  split.
  - intros [H|H]; [|simplify_eq; tauto]. destruct (decide (x = a)); [subst|]; tauto.
  - intros [[_ H]|[-> [[H _]| ->]]]; tauto.
Qed.

Lemma unlink_writes a r b :
  writes (fun s => set_gr s (remove_direct (gr s) a r b)) a
    (fun p => p <> TLink r b) (fun _ => False).
Proof.
  intros s. split; [done|]. split; [done|]. intros x p. simpl. unfold remove_direct.
  rewrite elem_of_difference, elem_of_singleton. split.
  - intros [H Hn]. destruct (decide (x = a)) as [->|]; [|tauto].
    right. split; [done|]. left. split; [done|]. congruence.
  - intros [[Hne H]|[-> [[H Hn]|[]]]]; (split; [done|congruence]).
Qed.

Lemma attr_writes u a l :
  writes (fun s => set_attr s u a l) u (fun p => forall l', p <> TAttr a l')
    (fun p => p = TAttr a l).
Proof.
  intros s. split; [done|]. split; [done|]. intros x p. rewrite set_attr_spec. split.
  - intros [H|[H Hn]]; [simplify_eq; tauto|]. destruct (decide (x = u)) as [->|]; [|tauto].
    right. split; [done|]. left. split; [done|]. intros l' ->. by destruct (Hn l').
  - intros [[Hne H]|[-> [[H Hn]| ->]]]; [|  |by left].
    + right. split; [done|]. intros l' Heq. congruence.
    + right. split; [done|]. intros l' Heq. simplify_eq. by destruct (Hn l').
Qed.

Definition wrote (isW : cls -> bool) (r : uid) (w w' : wsess) (s' : sess) : Prop :=
  winv isW w' r /\ abs w' = s' /\ wreg w ⊆ wreg w' /\ db w' = db w /\ bdel (ub w') = bdel (ub w) /\
  expd w' ⊆ expd w /\ badd (ub w') = badd (ub w).

Lemma mark_del u b : bdel (mark u b) = bdel b.
Proof. unfold mark. by case_decide. Qed.
Lemma mark_add u b : badd (mark u b) = badd b.
Proof. unfold mark. by case_decide. Qed.
Lemma mark_upd u b x : x ∈ bupd (mark u b) -> x ∈ bupd b \/ x = u.
Proof. unfold mark. case_decide; simpl; [tauto|]. rewrite elem_of_union, elem_of_singleton. tauto. Qed.

Lemma w_link_spec isW w r a q b :
  winv isW w r -> a ∈ wreg w -> b ∈ wreg w ->
  exists w', w_link isW w a q b = (w', None) /\ wreg w' = wreg w /\
    wrote isW r w w' (set_gr (abs w) (add_direct (gr (abs w)) a q b)).
Proof.
  intros Hw Ha Hb.
  destruct (w_write_spec isW _ w r a _ _ Hw Ha (link_writes a q b))
    as (w' & E & Hw' & Habs & Hc & Hd & Hu & He & _); [done|done|by intros q' v [= -> ->]|].
  exists w'. split; [exact E|]. assert (wreg w' = wreg w) as Hr by (unfold wreg; by rewrite Hc).
  split; [done|]. split; [done|]. split; [done|]. rewrite Hr, Hu, mark_del, mark_add. done.
Qed.

Lemma w_unlink_spec isW w r a q b :
  winv isW w r -> a ∈ wreg w ->
  exists w', w_unlink isW w a q b = (w', None) /\ wreg w' = wreg w /\
    wrote isW r w w' (set_gr (abs w) (remove_direct (gr (abs w)) a q b)) /\
    ub w' = mark a (ub w).
Proof.
  intros Hw Ha.
  destruct (w_write_spec isW _ w r a _ _ Hw Ha (unlink_writes a q b))
    as (w' & E & Hw' & Habs & Hc & Hd & Hu & He & _); [done|tauto|tauto|].
  exists w'. split; [exact E|]. assert (wreg w' = wreg w) as Hr by (unfold wreg; by rewrite Hc).
  split; [done|]. split; [|done]. split; [done|]. split; [done|]. rewrite Hr, Hu, mark_del, mark_add. done.
Qed.

Lemma w_set_attr_spec isW w r u a l :
  winv isW w r -> u ∈ wreg w ->
  exists w', w_set_attr isW w u a l = (w', None) /\ wreg w' = wreg w /\
    wrote isW r w w' (set_attr (abs w) u a l).
Proof.
  intros Hw Hu.
  destruct (w_write_spec isW _ w r u _ _ Hw Hu (attr_writes u a l))
    as (w' & E & Hw' & Habs & Hc & Hd & Hub & He & _); [done|done|done|].
  exists w'. split; [exact E|]. assert (wreg w' = wreg w) as Hr by (unfold wreg; by rewrite Hc).
  split; [done|]. split; [done|]. split; [done|]. rewrite Hr, Hub, mark_del, mark_add. done.
Qed.

(** ** add *)
Lemma wrote_trans isW r w1 w2 w3 s2 s3 :
  wrote isW r w1 w2 s2 -> wrote isW r w2 w3 s3 -> wrote isW r w1 w3 s3.
Proof.
  intros (A1 & A2 & A3 & A4 & A5 & A6 & A7) (B1 & B2 & B3 & B4 & B5 & B6 & B7).
  split; [done|]. split; [done|]. split; [by etrans|]. split; [congruence|]. split; [congruence|].
  split; [by etrans|congruence].
Qed.

Lemma quiet_wrote isW r w w' : winv isW w r -> quiet w w' -> wrote isW r w w' (abs w).
Proof.
  intros Hw Hq. pose proof (winv_quiet _ _ _ _ Hw Hq) as Hw'.
  destruct Hq as (Q1 & Q2 & Q3 & Q4 & Q5).
  split; [done|]. split; [by apply abs_ext|]. unfold wreg. rewrite Q1, Q2. done.
Qed.

Lemma linked_abs isW w r a q b :
  winv isW w r -> a ∈ wreg w -> linked (gr (abs w)) a q b = linked (wgr w) a q b.
Proof.
  intros Hw Ha. unfold linked. apply bool_decide_ext.
  rewrite (elem_abs w r) by apply Hw. tauto.
Qed.

Lemma w_add_spec isW O w r a q bs :
  winv isW w r -> a ∈ wreg w -> (forall b, b ∈ bs -> b ∈ wreg w) ->
  exists w', w_add isW O w a q bs = (w', snd (add O (abs w) a q bs)) /\
    wrote isW r w w' (fst (add O (abs w) a q bs)).
Proof.
  revert w. induction bs as [|b bs IH]; intros w Hw Ha Hbs; simpl.
  { exists w. split; [done|]. apply (quiet_wrote isW r w w Hw). repeat split; done. }
  destruct (notify_read_spec isW w r a Hw Ha) as (w0 & -> & Hq & _).
  pose proof (quiet_wrote _ _ _ _ Hw Hq) as Hq0. pose proof (winv_quiet _ _ _ _ Hw Hq) as Hw0.
  assert (wreg w0 = wreg w) as Hr0 by (unfold wreg; by rewrite (proj1 Hq)).
  assert (abs w0 = abs w) as Ha0 by apply Hq0.
  rewrite Hr0. rewrite bool_decide_true by done. simpl.
  rewrite <- (linked_abs isW w0 r) by (rewrite ?Hr0; done). rewrite Ha0.
  destruct (linked (gr (abs w)) a q b) eqn:El.
  { exists w0. done. }
  destruct (w_link_spec isW w0 r a q b) as (w1 & E1 & R1 & W1); [done|by rewrite Hr0|rewrite Hr0; apply Hbs; by left|].
  rewrite E1. destruct W1 as (Hw1 & Ha1 & W1).
  destruct (w_link_spec isW w1 r b (o_inv O q) a) as (w2 & E2 & R2 & W2);
    [done|rewrite R1, Hr0; apply Hbs; by left|by rewrite R1, Hr0|].
  rewrite E2. destruct W2 as (Hw2 & Ha2 & W2). rewrite Ha1, Ha0 in Ha2. simpl in Ha2.
  destruct (IH w2) as (w3 & E3 & W3);
    [done|by rewrite R2, R1, Hr0|intros x Hx; rewrite R2, R1, Hr0; apply Hbs; by right|].
  rewrite E3. unfold set_gr in Ha2; simpl in Ha2. unfold set_gr. rewrite Ha2 in W3 |- *.
  destruct (add O _ a q bs) as [s' res] eqn:E4 in W3 |- *.
  exists w3. split; [done|]. simpl in *.
  eapply wrote_trans; [exact Hq0|]. eapply wrote_trans; [split; [exact Hw1|split; [exact Ha1|exact W1]]|].
  eapply wrote_trans; [split; [exact Hw2|split; [exact Ha2|exact W2]]|]. done.
Qed.

(** ** Reading *)
Lemma abs_reg_facts isW w r u :
  winv isW w r -> u ∈ reg (abs w) -> u <> 0%N /\ u ∉ bdel (ub w).
Proof.
  intros Hw Hu. pose proof (wi_r0 _ _ _ Hw) as Hr0.
  apply (elem_abs_reg w r) in Hu; [|apply Hw]. destruct Hu as [Hu|[Hd [p Hp]]].
  - split; [intros ->; by apply (nz_reg _ (wi_nz _ _ _ Hw))|].
    intros Hd. by apply (wi_del _ _ _ Hw) in Hd as [? _].
  - split; [|done]. apply elem_view in Hp as (x' & p' & _ & -> & _). by apply sub_zero_nz.
Qed.

Lemma matching_abs isW O w r a uids rf oc b q :
  winv isW w r -> a ∈ wreg w ->
  matching O (core w) a uids rf oc b q <-> matching O (abs w) a uids rf oc b q.
Proof.
  intros Hw Ha. pose proof (wi_root _ _ _ Hw) as Hrt. unfold matching.
  assert (connected (core w) a q b <-> connected (abs w) a q b) as Hc.
  { unfold connected. rewrite (elem_abs w r) by done. change (gr (core w)) with (wgr w). tauto. }
  rewrite Hc.
  assert (connected (abs w) a q b ->
          forall t, (b, TType t) ∈ gr (core w) <-> (b, TType t) ∈ gr (abs w)) as Ht.
  { intros Hcon t. rewrite (elem_abs w r) by done. change (gr (core w)) with (wgr w).
    destruct (decide (b ∈ wreg w)) as [Hb|Hb]; [tauto|]. split.
    - intros H. apply (wi_out _ _ _ Hw) in H; [|done]. tauto.
    - intros [[? _]|(_ & _ & H)]; [done|]. apply (wi_ntype _ _ _ Hw a q); [done| |done|done].
      by apply Hc. }
  split; intros (H1 & H2 & H3 & H4); (split; [done|split; [done|split; [done|]]]);
    intros c Hoc; destruct (H4 c Hoc) as (t & Hin & Hs); exists t; (split; [|done]); by apply (Ht H1).
Qed.

Lemma connected_reg isW w r a q b :
  winv isW w r -> connected (abs w) a q b -> b ∈ reg (abs w).
Proof. intros Hw. apply (wi_tclosed _ _ _ Hw). Qed.

(** get()'s answers agree: positionally for given uids, up to the order of
    enumeration otherwise. *)
Definition same_answer (uids : list uid) (x y : res gresult) : Prop :=
  match uids with
  | [] => exists l l', x = Ok (Many l) /\ y = Ok (Many l') /\ l ≡ₚ l'
  | _ => x = y
  end.

(** [_get] in a wrapper session. *)
Lemma w_get__spec isW O w r a uids rf oc :
  winv isW w r -> a ∈ wreg w ->
  exists w', quiet w w' /\ winv isW w' r /\
   ((uids <> [] /\ oc <> None /\ w' = w /\ w_get_ isW O w a uids rf oc = (w, Err TypeError)) \/
    ((uids = [] \/ oc = None) /\ a ∉ expd w' /\
     exists found m, w_get_ isW O w a uids rf oc = (w', Ok (found, m)) /\
       get_ O (wgr w) a uids rf oc = Ok (found, m) /\
       rm_wf m /\
       (forall b q, rm_in m b q <-> matching O (abs w) a uids rf oc b q) /\
       (uids <> [] -> length found = length uids /\
          forall i b, uids !! i = Some b ->
            (found !! i = Some (Some b) /\ (exists q, matching O (abs w) a uids rf oc b q)) \/
            (found !! i = Some None /\ ~ exists q, matching O (abs w) a uids rf oc b q)) /\
       (uids = [] -> found = (fun um => Some (fst um)) <$> m))).
Proof.
  intros Hw Ha. unfold w_get_.
  destruct (decide (uids <> [] /\ oc <> None)) as [[Hu Hoc]|Hn].
  { exists w. split; [repeat split; done|]. split; [done|]. left.
    split; [done|]. split; [done|]. split; [done|]. destruct uids; [done|]. by destruct oc. }
  destruct (notify_read_spec isW w r a Hw Ha) as (w1 & E1 & Hq & Hex).
  pose proof (winv_quiet _ _ _ _ Hw Hq) as Hw1. exists w1. split; [done|]. split; [done|].
  right. assert (Hor : uids = [] \/ oc = None).
  { destruct uids; [by left|]. destruct oc; [|by right]. exfalso. apply Hn. naive_solver. }
  split; [done|]. split; [done|].
  destruct (get__spec O (core w) a uids rf oc) as [(Hu & Hoc & _)|(_ & found & m & Hg & Hwf & Hin & Hpos & Hl)].
  { destruct Hor; done. }
  exists found, m.
  assert (wreg w1 = wreg w) as Hr1 by (unfold wreg; by rewrite (proj1 Hq)).
  assert (wgr w1 = wgr w) as Hg1 by (unfold wgr; by rewrite (proj1 Hq)).
  split.
  { rewrite E1, Hr1, Hg1. change (gr (core w)) with (wgr w) in Hg.
    destruct uids as [|u0 us0]; [|destruct oc; [by destruct Hor|]];
      case_decide; try done; by rewrite Hg. }
  split; [done|]. split; [done|].
  split; [intros b q; rewrite Hin; by eapply matching_abs|].
  split; [|done]. intros Hne. destruct (Hpos Hne) as [Hlen Hp]. split; [done|].
  intros i b Hi.
  assert (forall q, matching O (core w) a uids rf oc b q <-> matching O (abs w) a uids rf oc b q) as Hmm.
  { intros q. by eapply matching_abs. }
  setoid_rewrite <- Hmm. by apply Hp.
Qed.

Lemma w_get_spec isW O w r a uids rf oc :
  winv isW w r -> a ∈ wreg w -> sess_inv O (abs w) ->
  exists w' res, w_get isW O w a uids rf oc = (w', res) /\
    same_answer uids res (get O (abs w) a uids rf oc) /\
    winv isW w' r /\ lrel w w' /\
    (uids = [] \/ oc = None -> a ∉ expd w') /\
    (forall b q, matching O (abs w) a uids rf oc b q -> uids = [] \/ oc = None -> b ∈ wreg w').
Proof.
  intros Hw Ha Hinv. unfold w_get, get.
  destruct (w_get__spec isW O w r a uids rf oc Hw Ha) as (w1 & Hq & Hw1 & HX).
  destruct HX as [(Hu & Hoc & -> & ->)|(Hor & Hex & found & m & -> & _ & Hwf & Hin & Hpos & Hl)].
  { exists w, (Err TypeError). split; [done|].
    destruct (get__spec O (abs w) a uids rf oc) as [(_ & _ & ->)|([?|?] & _)]; [|done|done].
    split; [by destruct uids|]. split; [done|]. split; [apply lrel_refl|].
    split; [by intros [?|?]|]. by intros b q _ [?|?]. }
  destruct (get__spec O (abs w) a uids rf oc) as [(Hu & Hoc & _)|(_ & found' & m' & -> & Hwf' & Hin' & Hpos' & Hl')].
  { destruct Hor; done. }
  assert (abs w1 = abs w) as Ha1 by by apply (quiet_lrel _ _ Hq).
  assert (forall u, Some u ∈ found -> exists q, matching O (abs w) a uids rf oc u q) as Hfm.
  { intros u Hu. destruct (decide (uids = [])) as [->|Hne].
    - rewrite Hl in Hu by done. apply elem_of_list_fmap in Hu as ([u' rs] & Heq & Hu).
      injection Heq as ->. simpl. setoid_rewrite <- Hin. apply rm_keys_in; [done|].
      apply elem_of_list_fmap. by exists (u', rs).
    - destruct (Hpos Hne) as [Hlen Hp]. apply elem_of_list_lookup in Hu as [i Hi].
      destruct (lookup_lt_is_Some_2 uids i) as [b Hb]. { apply lookup_lt_Some in Hi. lia. }
      destruct (Hp i b Hb) as [[Hf Hm]|[Hf _]]; rewrite Hf in Hi; simplify_eq. done. }
  assert (forall u, Some u ∈ found -> u ∈ reg (abs w)) as Hfr.
  { intros u Hu. destruct (Hfm u Hu) as [q Hm]. eapply connected_reg; [exact Hw|]. apply Hm. }
  assert (forall u, Some u ∈ found' -> u ∈ reg (abs w)) as Hfr'.
  { intros u Hu. destruct (decide (uids = [])) as [->|Hne].
    - rewrite Hl' in Hu by done. apply elem_of_list_fmap in Hu as ([u' rs] & Heq & Hu).
      injection Heq as ->. simpl.
      assert (u' ∈ m'.*1) as Hk by (apply elem_of_list_fmap; by exists (u', rs)).
      apply rm_keys_in in Hk as [q Hm]; [|done]. apply Hin' in Hm.
      eapply connected_reg; [exact Hw|]. apply Hm.
    - destruct (Hpos' Hne) as [Hlen Hp]. apply elem_of_list_lookup in Hu as [i Hi].
      destruct (lookup_lt_is_Some_2 uids i) as [b Hb]. { apply lookup_lt_Some in Hi. lia. }
      destruct (Hp i b Hb) as [[Hf [q Hm]]|[Hf _]]; rewrite Hf in Hi; simplify_eq.
      eapply connected_reg; [exact Hw|]. apply Hm. }
  assert (forall u, u ∈ omap id found <-> Some u ∈ found) as Hom.
  { intros u. rewrite elem_of_list_omap. split; [|by intros H; exists (Some u)].
    intros ([u'|] & H & Heq); simplify_eq/=. done. }
  destruct (wload_spec isW w1 r (omap id found)) as (w2 & E2 & Hw2 & Hl2 & Hin2 & Hx2 & _); [done| |].
  { intros u Hu. apply Hom, Hfr in Hu. apply (abs_reg_facts isW w1 r); [done|by rewrite Ha1]. }
  rewrite E2. change (load_back found (load (abs w1) (omap id found)))
    with (load_cuds_objects (abs w1) found).
  rewrite Ha1, !load_cuds_objects_id by done.
  assert (forall b q, matching O (abs w) a uids rf oc b q -> b ∈ wreg w2) as Hreg2.
  { intros b q Hm. apply Hin2.
    - apply Hom. destruct (decide (uids = [])) as [->|Hne].
      + rewrite Hl by done. apply Hin in Hm.
        assert (b ∈ m.*1) as Hb by (apply rm_keys_in; eauto).
        apply elem_of_list_fmap in Hb as ([b' rs] & -> & Hb). apply elem_of_list_fmap.
        by exists (b', rs).
      + destruct (Hpos Hne) as [Hlen Hp]. assert (b ∈ uids) as Hb by by apply Hm.
        apply elem_of_list_lookup in Hb as [i Hi].
        destruct (Hp i b Hi) as [[Hf _]|[_ Hnm]]; [by eapply elem_of_list_lookup_2|].
        exfalso. apply Hnm. eauto.
    - rewrite Ha1. eapply connected_reg; [exact Hw|]. apply Hm. }
  assert (lrel w w2) as Hlr by (eapply lrel_trans; [by apply quiet_lrel|done]).
  assert (a ∉ expd w2) as Hae. { intros He. apply (lr_exp _ _ Hl2) in He. done. }
  destruct uids as [|u0 us].
  - exists w2, (Ok (Many found)). split; [done|]. split; [|split_and!; auto; intros; eauto].
    exists found, found'. split; [done|]. split; [done|].
    rewrite Hl, Hl' by done.
    replace ((λ um : uid * gset rel, Some um.1) <$> m) with (Some <$> m.*1)
      by (by rewrite <- list_fmap_compose).
    replace ((λ um : uid * gset rel, Some um.1) <$> m') with (Some <$> m'.*1)
      by (by rewrite <- list_fmap_compose).
    apply fmap_Permutation. apply NoDup_Permutation; [apply Hwf|apply Hwf'|].
    intros x. rewrite !rm_keys_in by done. setoid_rewrite Hin. by setoid_rewrite Hin'.
  - assert (found = found') as <-.
    { destruct Hpos as [Hlen Hp]; [done|]. destruct Hpos' as [Hlen' Hp']; [done|].
      apply list_eq. intros i. destruct ((u0 :: us) !! i) as [b|] eqn:Ei.
      - destruct (Hp i b Ei) as [[-> Hm]|[-> Hm]], (Hp' i b Ei) as [[-> Hm']|[-> Hm']]; done.
      - apply lookup_ge_None in Ei. rewrite !lookup_ge_None_2 by lia. done. }
    exists w2. simpl in Hpos. destruct us as [|u1 us].
    + destruct found as [|x f].
      * exists (Err IndexError). split_and!; try done. intros; eauto.
      * exists (Ok (One x)). split_and!; try done. intros; eauto.
    + exists (Ok (Many found)). split_and!; try done. intros; eauto.
Qed.
