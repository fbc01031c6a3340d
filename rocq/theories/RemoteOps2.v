(** Refinement for remote sessions, continued: get, remove, delete, create. *)
From stdpp Require Import base sets list gmap countable.
From Verif Require Import Prelude Cuds CudsProofs Wrapper WrapperProofs WrapperRefine WrapperOps WrapperOps2
  WrapperCommit Buffers PropBuffers Remote RemoteServer RemoteClient RemoteOps.

Section ops.
  Context (isW : cls -> bool) (O : onto) (dc : uid -> cls) (order : gset uid -> list uid)
    (Hord : forall X x, x ∈ order X -> x ∈ X).

  Notation r_next := (r_next isW dc order).
  Notation r_load := (r_load isW dc order).
  Notation r_get_ := (r_get_ isW O dc order).
  Notation r_get := (r_get isW O dc order).
  Notation r_remove := (r_remove isW O dc order).
  Notation rwrote := (rwrote isW).

  (** ** Reading *)
  Lemma r_get__spec s r S J a uids rf oc :
    rinv isW s r S J -> a ∈ wreg (fst s) ->
    exists s', rinv isW s' r S J /\ srel s s' /\ core (fst s') = core (fst s) /\
     ((uids <> [] /\ oc <> None /\ s' = s /\ r_get_ s a uids rf oc = (s, Err TypeError)) \/
      ((uids = [] \/ oc = None) /\ a ∉ expd (fst s') /\
       exists found m, r_get_ s a uids rf oc = (s', Ok (found, m)) /\
         rm_wf m /\
         (forall b q, rm_in m b q <-> matching O (abs (fst s)) a uids rf oc b q) /\
         (uids <> [] -> length found = length uids /\
            forall i b, uids !! i = Some b ->
              (found !! i = Some (Some b) /\ (exists q, matching O (abs (fst s)) a uids rf oc b q)) \/
              (found !! i = Some None /\ ~ exists q, matching O (abs (fst s)) a uids rf oc b q)) /\
         (uids = [] -> found = (fun um => Some (fst um)) <$> m))).
  Proof.
    intros HI Ha. unfold Remote.r_get_.
    destruct (decide (uids <> [] /\ oc <> None)) as [[Hu Hoc]|Hn].
    { exists s. split; [done|]. split; [apply srel_refl|]. split; [done|]. left.
      split; [done|]. split; [done|]. split; [done|]. destruct uids; [done|]. by destruct oc. }
    destruct (r_notify_read_spec isW dc order Hord s r S J a HI Ha) as (s1 & E1 & HI1 & Hs1 & Hc1 & Hex).
    exists s1. split; [done|]. split; [done|]. split; [done|].
    right. assert (Hor : uids = [] \/ oc = None).
    { destruct uids; [by left|]. destruct oc; [|by right]. exfalso. apply Hn. naive_solver. }
    split; [done|]. split; [done|].
    destruct (get__spec O (core (fst s)) a uids rf oc) as [(Hu & Hoc & _)|(_ & found & m & Hg & Hwf & Hin & Hpos & Hl)].
    { destruct Hor; done. }
    exists found, m.
    assert (wreg (fst s1) = wreg (fst s)) as Hr1 by (unfold wreg; by rewrite Hc1).
    assert (wgr (fst s1) = wgr (fst s)) as Hg1 by (unfold wgr; by rewrite Hc1).
    pose proof (ri_c _ _ _ _ _ HI) as Hw.
    split.
    { rewrite E1, Hr1, Hg1. change (gr (core (fst s))) with (wgr (fst s)) in Hg.
      destruct uids as [|u0 us0]; [|destruct oc; [by destruct Hor|]];
        case_decide; try done; by rewrite Hg. }
    split; [done|].
    split; [intros b q; rewrite Hin; by eapply matching_abs|].
    split; [|done]. intros Hne. destruct (Hpos Hne) as [Hlen Hp]. split; [done|].
    intros i b Hi.
    assert (forall q, matching O (core (fst s)) a uids rf oc b q <-> matching O (abs (fst s)) a uids rf oc b q) as Hmm.
    { intros q. by eapply matching_abs. }
    setoid_rewrite <- Hmm. by apply Hp.
  Qed.

  Lemma r_get_spec s r S J a uids rf oc :
    rinv isW s r S J -> a ∈ wreg (fst s) -> sess_inv O (abs (fst s)) ->
    exists s' res, r_get s a uids rf oc = (s', res) /\
      same_answer uids res (get O (abs (fst s)) a uids rf oc) /\
      rinv isW s' r S J /\ srel s s' /\
      (uids = [] -> (forall b q, ~ matching O (abs (fst s)) a uids rf oc b q) -> a ∉ expd (fst s')) /\
      (forall b q, matching O (abs (fst s)) a uids rf oc b q -> uids = [] \/ oc = None -> b ∈ wreg (fst s')).
  Proof.
    intros HI Ha Hinv. unfold Remote.r_get, get. pose proof (ri_c _ _ _ _ _ HI) as Hw.
    destruct (r_get__spec s r S J a uids rf oc HI Ha) as (s1 & HI1 & Hs1 & Hc1 & HX).
    destruct HX as [(Hu & Hoc & -> & ->)|(Hor & Hex & found & m & -> & Hwf & Hin & Hpos & Hl)].
    { exists s, (Err TypeError). split; [done|].
      destruct (get__spec O (abs (fst s)) a uids rf oc) as [(_ & _ & ->)|([?|?] & _)]; [|done|done].
      split; [by destruct uids|]. split; [done|]. split; [apply srel_refl|].
      split; [by intros ?|]. by intros b q _ [?|?]. }
    destruct (get__spec O (abs (fst s)) a uids rf oc) as [(Hu & Hoc & _)|(_ & found' & m' & -> & Hwf' & Hin' & Hpos' & Hl')].
    { destruct Hor; done. }
    assert (abs (fst s1) = abs (fst s)) as Ha1 by apply Hs1.
    assert (forall u, Some u ∈ found -> exists q, matching O (abs (fst s)) a uids rf oc u q) as Hfm.
    { intros u Hu. destruct (decide (uids = [])) as [->|Hne].
      - rewrite Hl in Hu by done. apply elem_of_list_fmap in Hu as ([u' rs] & Heq & Hu).
        injection Heq as ->. simpl. setoid_rewrite <- Hin. apply rm_keys_in; [done|].
        apply elem_of_list_fmap. by exists (u', rs).
      - destruct (Hpos Hne) as [Hlen Hp]. apply elem_of_list_lookup in Hu as [i Hi].
        destruct (lookup_lt_is_Some_2 uids i) as [b Hb]. { apply lookup_lt_Some in Hi. lia. }
        destruct (Hp i b Hb) as [[Hf Hm]|[Hf _]]; rewrite Hf in Hi; simplify_eq. done. }
    assert (forall u, Some u ∈ found -> u ∈ reg (abs (fst s))) as Hfr.
    { intros u Hu. destruct (Hfm u Hu) as [q Hm]. eapply connected_reg; [exact Hw|]. apply Hm. }
    assert (forall u, Some u ∈ found' -> u ∈ reg (abs (fst s))) as Hfr'.
    { intros u Hu. destruct (decide (uids = [])) as [->|Hne].
      - rewrite Hl' in Hu by done. apply elem_of_list_fmap in Hu as ([u' rs] & Heq & Hu).
        injection Heq as ->. simpl.
        assert (u' ∈ m'.*1) as Hk by (apply elem_of_list_fmap; by exists (u', rs)).
        apply rm_keys_in in Hk as [q Hm]; [|done]. apply Hin' in Hm.
        eapply connected_reg; [exact Hw|]. apply Hm.
      - destruct (Hpos' Hne) as [Hlen Hp]. apply elem_of_list_lookup in Hu as [i Hi].
        destruct (lookup_lt_is_Some_2 uids i) as [b Hb]. { apply lookup_lt_Some in Hi. lia. }
        destruct (Hp i b Hb) as [[Hf [q Hm]]|[Hf _]]; rewrite Hf in Hi; simplify_eq.
        eapply connected_reg; [exact Hw|]. apply Hm. }
    assert (forall u, u ∈ omap id found <-> Some u ∈ found) as Hom.
    { intros u. rewrite elem_of_list_omap. split; [|by intros H; exists (Some u)].
      intros ([u'|] & H & Heq); simplify_eq/=. done. }
    destruct (r_load_spec isW dc order Hord s1 r S J (omap id found))
      as (s2 & E2 & HI2 & Hs2 & Hin2 & Hx2 & _ & Hx2'); [done| |].
    { intros u Hu. apply Hom, Hfr in Hu. apply (abs_reg_facts isW (fst s1) r); [apply HI1|by rewrite Ha1]. }
    rewrite E2. change (load_back found (load (abs (fst s1)) (omap id found)))
      with (load_cuds_objects (abs (fst s1)) found).
    rewrite Ha1, !load_cuds_objects_id by done.
    assert (forall b q, matching O (abs (fst s)) a uids rf oc b q -> b ∈ wreg (fst s2)) as Hreg2.
    { intros b q Hm. apply Hin2.
      - apply Hom. destruct (decide (uids = [])) as [->|Hne].
        + rewrite Hl by done. apply Hin in Hm.
          assert (b ∈ m.*1) as Hb by (apply rm_keys_in; eauto).
          apply elem_of_list_fmap in Hb as ([b' rs] & -> & Hb). apply elem_of_list_fmap.
          by exists (b', rs).
        + destruct (Hpos Hne) as [Hlen Hp]. assert (b ∈ uids) as Hb by by apply Hm.
          apply elem_of_list_lookup in Hb as [i Hi].
          destruct (Hp i b Hi) as [[Hf _]|[_ Hnm]]; [by eapply elem_of_list_lookup_2|].
          exfalso. apply Hnm. eauto.
      - rewrite Ha1. eapply connected_reg; [exact Hw|]. apply Hm. }
    assert (srel s s2) as Hlr by (by eapply srel_trans).
    assert (uids = [] -> (forall b q, ~ matching O (abs (fst s)) a uids rf oc b q) -> a ∉ expd (fst s2)) as Hae.
    { intros -> Hno He. apply Hx2' in He; [done|].
      destruct (omap id found) as [|u l] eqn:Eo; [done|]. exfalso.
      destruct (Hfm u) as [q Hq]; [apply Hom; left|]. by apply Hno in Hq. }
    destruct uids as [|u0 us].
    - exists s2, (Ok (Many found)). split; [done|]. split; [|split_and!; auto; intros; eauto].
      exists found, found'. split; [done|]. split; [done|].
      rewrite Hl, Hl' by done.
      replace ((λ um : uid * gset rel, Some um.1) <$> m) with (Some <$> m.*1)
        by (by rewrite <- list_fmap_compose).
      replace ((λ um : uid * gset rel, Some um.1) <$> m') with (Some <$> m'.*1)
        by (by rewrite <- list_fmap_compose).
      apply fmap_Permutation. apply NoDup_Permutation; [apply Hwf|apply Hwf'|].
      intros x. rewrite !rm_keys_in by done. setoid_rewrite Hin. by setoid_rewrite Hin'.
    - assert (found = found') as <-.
      { destruct Hpos as [Hlen Hp]; [done|]. destruct Hpos' as [Hlen' Hp']; [done|].
        apply list_eq. intros i. destruct ((u0 :: us) !! i) as [b|] eqn:Ei.
        - destruct (Hp i b Ei) as [[-> Hm]|[-> Hm]], (Hp' i b Ei) as [[-> Hm']|[-> Hm']]; done.
        - apply lookup_ge_None in Ei. rewrite !lookup_ge_None_2 by lia. done. }
      exists s2. simpl in Hpos. destruct us as [|u1 us].
      + destruct found as [|x f].
        * exists (Err IndexError). split_and!; try done. intros; eauto.
        * exists (Ok (One x)). split_and!; try done. intros; eauto.
      + exists (Ok (Many found)). split_and!; try done. intros; eauto.
  Qed.

  (** ** remove *)
  Lemma r_remove_rels_spec a b rs : forall s r S J,
    rinv isW s r S J -> a ∈ wreg (fst s) -> b ∈ wreg (fst s) ->
    exists s', r_remove_rels isW O dc order s a b (Some b) rs = (s', None) /\
      rwrote r S J s s' (set_gr (abs (fst s)) (fst (remove_rels O (gr (abs (fst s))) a b true rs))) /\
      wreg (fst s') = wreg (fst s) /\
      (forall x, x ∈ bupd (ub (fst s')) -> x ∈ bupd (ub (fst s)) \/ x = a \/ x = b) /\
      (rs <> [] -> a ∈ badd (ub (fst s')) \/ a ∈ bupd (ub (fst s'))).
  Proof.
    induction rs as [|q rs IH]; intros s r S J HI Ha Hb; simpl.
    { exists s. split; [done|]. split; [|split; [done|tauto]].
      replace (set_gr (abs (fst s)) (gr (abs (fst s)))) with (abs (fst s)) by by destruct (abs (fst s)).
      apply srel_rwrote; [done|apply srel_refl]. }
    destruct (r_unlink_spec isW dc order Hord s r S J a q b) as (s1 & E1 & R1 & W1 & M1); [done|done|].
    rewrite E1. pose proof (proj1 W1) as HI1. pose proof (proj1 (proj2 W1)) as Ha1.
    destruct (r_unlink_spec isW dc order Hord s1 r S J b (o_inv O q) a) as (s2 & E2 & R2 & W2 & M2);
      [done|by rewrite R1|].
    rewrite E2. pose proof (proj1 W2) as HI2. pose proof (proj1 (proj2 W2)) as Ha2. rewrite Ha1 in Ha2. simpl in Ha2.
    destruct (IH s2 r S J) as (s3 & E3 & W3 & R3 & B3 & _); [done|by rewrite R2, R1|by rewrite R2, R1|].
    rewrite E3. exists s3. split; [done|]. split; [|split; [congruence|split]].
    - eapply rwrote_trans; [exact W1|]. eapply rwrote_trans; [exact W2|]. rewrite Ha2 in W3. exact W3.
    - intros x Hx. apply B3 in Hx as [Hx|Hx]; [|tauto]. rewrite M2 in Hx.
      apply mark_upd in Hx as [Hx|Hx]; [|tauto]. rewrite M1 in Hx. apply mark_upd in Hx. tauto.
    - intros _. destruct W2 as (_ & _ & _ & _ & _ & BA2 & BU2 & _). destruct W3 as (_ & _ & _ & _ & _ & BA3 & BU3 & _).
      rewrite BA3, BA2, M1, mark_add. destruct (decide (a ∈ badd (ub (fst s)))) as [|Hn]; [by left|]. right.
      apply BU3, BU2. rewrite M1. unfold mark. rewrite decide_False by done. cbn. set_solver.
  Qed.

  Lemma found_crel w w' x : abs w' = abs w -> found w' x = found w x.
  Proof. apply found_ext. Qed.

  Lemma r_remove_all_spec expired miss us a m : forall g s r S J,
    rinv isW s r S J -> a ∈ wreg (fst s) -> a ∉ miss -> NoDup m.*1 ->
    gen_ok miss m.*1 g (fst s) ->
    (g = None -> forall x, x ∈ miss -> may_load (fst s) x) ->
    (forall b rs, (b, rs) ∈ m -> rs <> ∅ /\ b ∈ reg (abs (fst s)) /\ (b ∉ miss -> b ∈ wreg (fst s))) ->
    exists s', r_remove_all isW O dc order expired miss us g s a m = (s', None) /\
      rwrote r S J s s' (fst (remove_all O (abs (fst s)) a m)) /\ snd (remove_all O (abs (fst s)) a m) = None /\
      (m <> [] -> a ∈ badd (ub (fst s')) \/ a ∈ bupd (ub (fst s'))).
  Proof.
    induction m as [|[b rs] m IH]; intros g s r S J HI Ha Ham Hnd Hg Hml Hm; simpl.
    { exists s. split; [done|]. split; [|done]. apply srel_rwrote; [done|apply srel_refl]. }
    rewrite fmap_cons in Hnd, Hg. cbn [fst] in Hnd, Hg.
    apply stdpp.list.NoDup_cons in Hnd as [Hbm Hnd].
    destruct (Hm b rs) as (Hrs & Hbr & Hb2); [by left|].
    destruct (r_elem_spec isW dc order Hord expired miss us b m.*1 g s r S J HI Hg Hml Hb2)
      as (s1 & g1 & E1 & HI1 & Hs1 & Hg1 & Hin1 & _ & Hx1).
    rewrite E1. unfold found. rewrite decide_True by done.
    rewrite bool_decide_true by done. pose proof (proj1 Hs1) as Hcr.
    destruct (r_remove_rels_spec a b (elements rs) s1 r S J)
      as (s2 & E2 & W2 & R2 & B2 & A2); [done|by apply (kr_reg _ _ Hcr)|auto|].
    rewrite E2. rewrite (kr_abs _ _ Hcr) in W2.
    destruct (remove_rels O (gr (abs (fst s))) a b true (elements rs)) as [g1' e1] eqn:Er.
    apply remove_rels_spec in Er as Hr'. destruct Hr' as [-> _]. simpl in W2.
    pose proof (proj1 W2) as HI2. pose proof (proj1 (proj2 W2)) as Ha2.
    destruct (W2) as (_ & _ & _ & _ & BD2 & BA2 & BU2 & _).
    destruct (IH g1 s2 r S J) as (s3 & E3 & W3 & S3 & _); [done| |done|done| | | |].
    { rewrite R2. by apply (kr_reg _ _ Hcr). }
    { unfold gen_ok in Hg1 |- *. destruct g1 as [l|]; [|done]. destruct Hg1 as [-> Hg1]. split.
      - apply map_ext. intros x. unfold found. rewrite Ha2. cbn [set_gr reg]. by rewrite (kr_abs _ _ Hcr).
      - intros x Hx. rewrite Ha2, R2. cbn [set_gr reg]. rewrite <- (kr_abs _ _ Hcr). by apply Hg1. }
    { intros Hgn x Hx. destruct Hx1 as [(_ & _ & ? & _)|(_ & Hbn & Hiff)]; [done|].
      apply Hiff in Hgn as ->. assert (b ∉ miss) as Hbmiss by (intros H; by destruct (Hbn H)).
      destruct (Hml eq_refl x Hx) as (M1 & M2 & M3). split; [done|].
      rewrite BD2, BA2, (kr_ub _ _ Hcr). split; [done|]. intros _.
      assert (x ∉ badd (ub (fst s)) /\ x ∉ bupd (ub (fst s))) as [N1 N2].
      { destruct (decide (x ∈ wreg (fst s))) as [Hi|Hi]; [by apply M3|]. pose proof (ri_c _ _ _ _ _ HI) as Hw.
        split; intros H; [by apply (wi_add _ _ _ Hw) in H as [? _]|by apply (wi_upd _ _ _ Hw) in H as [? _]]. }
      split; [done|]. intros H. apply B2 in H as [H|[->| ->]]; [|done|done].
      by rewrite (kr_ub _ _ Hcr) in H. }
    { intros x rs' Hx. destruct (Hm x rs') as (H1 & H2 & H3); [by right|]. rewrite Ha2. cbn [set_gr reg].
      split; [done|]. split; [done|]. intros Hn. rewrite R2. apply (kr_reg _ _ Hcr). auto. }
    rewrite Ha2 in W3, S3. exists s3. split; [done|]. split.
    { eapply rwrote_trans; [exact (srel_rwrote isW r S J s s1 HI1 Hs1)|].
      eapply rwrote_trans; [exact W2|exact W3]. }
    split; [done|]. intros _. destruct W3 as (_ & _ & _ & _ & _ & BA3 & BU3 & _).
    rewrite BA3. destruct A2 as [A2|A2]; [|by left|right; by apply BU3].
    intros He. apply Hrs. by apply elements_empty_inv in He; apply leibniz_equiv.
  Qed.

  Lemma r_remove_spec s r S J a uids rf oc :
    rinv isW s r S J -> a ∈ wreg (fst s) -> sess_inv O (abs (fst s)) ->
    exists s', r_remove s a uids rf oc = (s', snd (remove O (abs (fst s)) a uids rf oc)) /\
      rwrote r S J s s' (fst (remove O (abs (fst s)) a uids rf oc)) /\
      (snd (remove O (abs (fst s)) a uids rf oc) = None -> a ∈ badd (ub (fst s')) \/ a ∈ bupd (ub (fst s'))).
  Proof.
    intros HI Ha Hinv. unfold Remote.r_remove.
    destruct (r_get__spec s r S J a uids rf oc HI Ha) as ([w1 p1] & HI1 & Hs1 & Hc1 & HX).
    pose proof (remove_spec O (abs (fst s)) a uids rf oc Hinv) as Hrm.
    destruct (remove O (abs (fst s)) a uids rf oc) as [s' e] eqn:Er. simpl.
    pose proof (srel_rwrote isW r S J _ _ HI1 Hs1) as Hqw.
    destruct HX as [(Hu & Hoc & Heq & ->)|(Hor & Hex & found & m & -> & Hwf & Hin & _ & _)].
    { unfold remove in Er.
      destruct (get__spec O (abs (fst s)) a uids rf oc) as [(_ & _ & Hg)|([?|?] & _)]; [|done|done].
      rewrite Hg in Er. injection Er as <- <-. rewrite Heq in Hqw. exists s. split. { by destruct s. } split; [exact Hqw|]. intros Hno; discriminate Hno. }
    assert (abs w1 = abs (fst s)) as Ha1 by apply Hqw. cbn [fst snd] in *.
    assert (wreg w1 = wreg (fst s)) as Hr1 by (unfold wreg; by rewrite Hc1).
    pose proof (ri_c _ _ _ _ _ HI1) as Hw1. cbn [fst] in Hw1. pose proof (ri_c _ _ _ _ _ HI) as Hw.
    destruct (decide (m = [])) as [->|Hm].
    { destruct Hrm as [(_ & ? & ? & _)|[(-> & _ & -> & _)|(_ & (b & q & Hm) & _)]].
      - destruct Hor; done.
      - exists (w1, p1). done.
      - exfalso. apply Hin in Hm as (rs & Hi & _). by apply elem_of_nil in Hi. }
    destruct Hrm as [(_ & ? & ? & _)|[(_ & _ & _ & Hno)|(-> & _ & Hreg & Hroot & Ht)]].
    { destruct Hor; done. }
    { exfalso. apply rm_nonempty in Hm as (b & q & Hbq); [|done]. apply Hin in Hbq. by apply Hno in Hbq. }
    rewrite (wi_root _ _ _ Hw1).
    match goal with |- context [r_remove_all ?a1 ?a2 ?a3 ?a4 ?a5 ?a6 ?a7 ?a8 ?a9 ?b1 ?b2] =>
      set (X := r_remove_all a1 a2 a3 a4 a5 a6 a7 a8 a9 b1 b2) end.
    assert (match m with [] => ((w1, p1), Some RuntimeError) | _ => X end = X) as HX by by destruct m.
    rewrite HX. subst X. clear HX.
    destruct (prelude_rinv isW (w1, p1) r S J m.*1 HI1) as [HI2 Hs2]. cbn [fst snd] in *.
    pose proof (srel_rwrote isW r S J _ _ HI2 Hs2) as Hqw2. cbn [fst] in Hqw2.
    assert (forall b rs, (b, rs) ∈ m -> exists q, matching O (abs (fst s)) a uids rf oc b q) as Hmm.
    { intros b rs Hb. setoid_rewrite <- Hin. apply rm_keys_in; [done|]. apply elem_of_list_fmap. by exists (b, rs). }
    assert (forall b rs, (b, rs) ∈ m -> b ∈ reg (abs (fst s))) as Hbreg.
    { intros b rs Hb. destruct (Hmm b rs Hb) as [q Hq]. eapply connected_reg; [exact Hw|]. apply Hq. }
    assert (forall x, x ∈ m.*1 -> exists rs, (x, rs) ∈ m) as Hkeys.
    { intros x Hx. apply elem_of_list_fmap in Hx as ([x' rs] & -> & Hx). eauto. }
    destruct (r_remove_all_spec (list_to_set m.*1 ∩ expd w1) (missing_uids w1 m.*1) m.*1 a m None
                (load_prelude w1 m.*1, p1) r S J HI2) as (s3 & E3 & W3 & S3 & A3).
    - change (a ∈ wreg w1). by rewrite Hr1.
    - unfold missing_uids. rewrite elem_of_list_filter, Hr1. tauto.
    - apply Hwf.
    - by apply (gen_missing isW dc).
    - intros _ x Hx. assert (x ∈ m.*1) as Hxm. { unfold missing_uids in Hx. by apply elem_of_list_filter in Hx as [_ ?]. }
      destruct (Hkeys x Hxm) as [rs Hxr]. apply Hbreg in Hxr. rewrite <- Ha1 in Hxr.
      destruct (abs_reg_facts isW w1 r x Hw1 Hxr) as [X0 Xd].
      by apply (missing_facts isW dc (w1, p1) r S J m.*1 x HI1).
    - intros b rs Hb. cbn [fst]. split.
      { destruct Hwf as [_ Hne]. rewrite stdpp.list.Forall_forall in Hne. exact (Hne _ Hb). }
      split. { change (abs (load_prelude w1 m.*1)) with (abs w1). rewrite Ha1. by eapply Hbreg. }
      intros Hn. apply (missing_facts isW dc (w1, p1) r S J m.*1 b HI1); [|done].
      apply elem_of_list_fmap. by exists (b, rs).
    - rewrite E3. exists s3. split; [done|]. cbn [fst] in W3, S3.
      assert (abs (load_prelude w1 m.*1) = abs (fst s)) as Ha2.
      { exact Ha1. }
      rewrite Ha2 in W3.
      destruct (remove_all O (abs (fst s)) a m) as [s'' e''] eqn:Era. simpl in W3.
      apply remove_all_spec in Era as (-> & Hreg' & Hroot' & Ht').
      2: { intros b Hb. destruct (Hkeys b Hb) as [rs Hbr]. by eapply Hbreg. }
      assert (s'' = s') as ->.
      { apply sess_eq; [by rewrite Hreg, Hreg'| |congruence].
        intros t. rewrite Ht, Ht'. by setoid_rewrite Hin. }
      split; [|by auto].
      eapply rwrote_trans; [exact Hqw|]. eapply rwrote_trans; [exact Hqw2|done].
  Qed.

  (** ** delete *)
  Lemma r_delete_triples_rinv w p r S J u w' :
    rinv isW (w, p) r S J -> u ∈ wreg w -> w_delete_triples w u = (w', None) -> winv isW w' r ->
    wreg w' = wreg w ∖ {[u]} -> db w' = db w -> rinv isW (w', p) r S J.
  Proof.
    intros HI Hu E Hw' Hr Hd. constructor; cbn [fst snd]; [done|apply HI|rewrite Hd; apply HI|].
    pose proof (ri_c _ _ _ _ _ HI) as Hw. cbn [fst] in Hw.
    assert (forall x, (x ∈ bdel (ub w') -> x ∈ bdel (ub w) \/ (x = u /\ u ∉ badd (ub w))) /\
                      (x <> u -> x ∈ badd (ub w) -> x ∈ badd (ub w'))) as HB.
    { unfold w_delete_triples, delete_triples in E. change (reg (core w)) with (wreg w) in E.
      rewrite decide_True in E by done. injection E as <-. unfold notify_delete, cur_buf, set_cur_buf. cbn.
      rewrite (wi_cur _ _ _ Hw). intros x.
      destruct (decide (u ∈ badd (ub w))); [|destruct (decide (u ∈ bupd (ub w)))]; cbn;
        rewrite ?elem_of_difference, ?elem_of_union, ?elem_of_singleton; tauto. }
    intros x Hx Hn. destruct (HB x) as [H1 H2]. apply (ri_known _ _ _ _ _ HI); cbn [fst].
    - rewrite Hr in Hx. destruct Hx as [Hx|Hx].
      + apply elem_of_difference in Hx as [Hx _]. by left.
      + destruct (H1 Hx) as [?|[-> _]]; [by right|by left].
    - intros Hb. rewrite Hr in Hx. destruct (decide (x = u)) as [->|Hne]; [|by apply Hn, H2].
      destruct Hx as [Hx|Hx]; [by apply elem_of_difference in Hx as [_ Hx]; destruct Hx; apply elem_of_singleton|].
      destruct (H1 Hx) as [Hx'|[_ ?]]; [|done]. by apply (wi_del _ _ _ Hw) in Hx' as [? _].
  Qed.

  Lemma delete_triples_added w u w' :
    cur w = USER -> w_delete_triples w u = (w', None) -> badd (ub w') ⊆ badd (ub w).
  Proof.
    intros Hc. unfold w_delete_triples. destruct (delete_triples (core w) u) as [s' [e|]]; [done|]. intros [= <-].
    unfold notify_delete, cur_buf, set_cur_buf. change (cur (set_core w s')) with (cur w). rewrite Hc.
    change (ub (set_core w s')) with (ub w). repeat case_decide; cbn [ub badd set_ub]; [|done|done].
    change (badd (ub w) ∖ {[u]} ⊆ badd (ub w)). clear. set_solver.
  Qed.

  Lemma r_delete_spec s r S J u :
    rinv isW s r S J -> u ∈ wreg (fst s) -> u <> r -> involutive O -> sess_inv O (abs (fst s)) ->
    covered O (abs (fst s)) ->
    exists s', r_delete isW O dc order s u = (s', None) /\ rinv isW s' r S J /\
      snd (delete_cuds_object O (abs (fst s)) u) = None /\
      abs (fst s') = fst (delete_cuds_object O (abs (fst s)) u) /\ db (fst s') = db (fst s) /\
      wreg (fst s) ∖ {[u]} ⊆ wreg (fst s') /\ ub (snd s') = ub (snd s) /\
      badd (ub (fst s')) ⊆ badd (ub (fst s)).
  Proof.
    intros HI Hu Hur Hivl Hinv Hcov. pose proof (ri_c _ _ _ _ _ HI) as Hw.
    assert (u ∈ reg (abs (fst s))) as Hua by (apply (elem_abs_reg (fst s) r); [apply Hw|by left]).
    destruct (delete_spec O (abs (fst s)) u Hivl Hinv Hua Hcov) as (s' & Ed & Dr & Dro & Dt).
    rewrite Ed. simpl. unfold r_delete.
    destruct (r_get_spec s r S J u [] (Some (o_relationship O)) None HI Hu Hinv)
      as ([w1 p1] & res & -> & (l & l' & -> & Eg & Hperm) & HI1 & Hs1 & Hex1 & _).
    destruct (get_all_spec O (abs (fst s)) u (Some (o_relationship O)) None Hinv) as (bs & Hget & _ & Hbs).
    rewrite Hget in Eg. injection Eg as <-.
    assert (Hm : forall b q, matching O (abs (fst s)) u [] (Some (o_relationship O)) None b q <->
                             connected (abs (fst s)) u q b).
    { intros b q. split; [intros H; apply H|]. intros Hc. split; [done|].
      split; [|split; done]. intros sup [= <-]. by eapply Hcov. }
    pose proof (proj1 Hs1) as Hcr. cbn [fst snd] in *.
    assert (u ∈ wreg w1) as Hu1 by by apply (kr_reg _ _ Hcr).
    pose proof (kr_abs _ _ Hcr) as Ha1. pose proof (ri_c _ _ _ _ _ HI1) as Hw1. cbn [fst] in Hw1.
    destruct bs as [|b0 bs].
    - apply Permutation_nil_r in Hperm as ->.
      assert (forall b q, ~ connected (abs (fst s)) u q b) as Hno.
      { intros b q Hc. assert (b ∈ @nil uid) as Hn by (apply Hbs; exists q; by apply Hm).
        by apply elem_of_nil in Hn. }
      assert (forall b q, (b, TLink q u) ∉ gr (abs (fst s))) as Hnl.
      { intros b q Hc. apply (proj1 Hinv b q u) in Hc. by apply Hno in Hc. }
      assert (u ∉ expd w1) as Hex. { apply Hex1; [done|]. intros b q H. apply Hm in H. by apply Hno in H. }
      destruct (w_delete_triples_spec isW w1 r u) as (w2 & E2 & Hw2 & R2 & D2 & RA & RO & GA);
        [done|done|done|done|by rewrite Ha1|].
      rewrite E2. exists (w2, p1). split; [done|]. split; [by eapply r_delete_triples_rinv|].
      split; [done|]. cbn [fst snd]. split.
      + apply sess_eq; [by rewrite RA, Dr, Ha1| |by rewrite RO, Dro, Ha1].
        intros t. rewrite GA, Dt, Ha1. split; [|tauto]. intros [Hin Hf]. split; [done|].
        split; [done|]. intros b q ->. by apply Hnl in Hin.
      + split; [by rewrite D2, (kr_db _ _ Hcr)|]. split; [|split; [apply Hs1|]].
        * rewrite R2. pose proof (kr_reg _ _ Hcr) as Hs. clear -Hs. set_solver.
        * rewrite <- (kr_ub _ _ Hcr). apply (delete_triples_added w1 u); [apply Hw1|done].
    - destruct l as [|x l].
      { by apply Permutation_nil_l in Hperm. }
      destruct (r_remove_spec (w1, p1) r S J u [] (Some (o_relationship O)) None) as ([w2 p2] & E2 & W2 & A2);
        [done|done|cbn [fst]; by rewrite Ha1|].
      cbn [fst snd] in *. rewrite Ha1 in E2, W2, A2.
      pose proof (remove_spec O (abs (fst s)) u [] (Some (o_relationship O)) None Hinv) as Hrm.
      destruct (remove O (abs (fst s)) u [] (Some (o_relationship O)) None) as [s1 e1].
      simpl in E2, W2, A2.
      destruct Hrm as [(_ & ? & _)|[(_ & _ & _ & Hno)|(-> & _ & Hr & Hro & Ht)]]; [done| |].
      { exfalso. assert (b0 ∈ b0 :: bs) as Hb0 by left. apply Hbs in Hb0 as [q Hq]. by apply Hno in Hq. }
      rewrite E2. destruct W2 as (HI2 & Ha2 & R2 & D2 & BD2 & BA2 & BU2 & UP2). cbn [fst snd] in *.
      pose proof (ri_c _ _ _ _ _ HI2) as Hw2. cbn [fst] in Hw2.
      assert (forall b q, (b, TLink q u) ∉ gr s1) as Hnl.
      { intros b q Hc. apply Ht in Hc as [Hc Hn]. apply (proj1 Hinv b q u) in Hc as Hc'.
        destruct (Hn b (o_inv O q)) as [_ Hn2]; [by apply Hm|]. apply Hn2. by rewrite Hivl. }
      assert (u ∉ expd w2) as Hex.
      { intros He. apply (wi_exp _ _ _ Hw2) in He as (_ & H1 & H2). by destruct (A2 eq_refl). }
      destruct (w_delete_triples_spec isW w2 r u) as (w3 & E3 & Hw3 & R3 & D3 & RA & RO & GA);
        [done|by apply R2|done|done|by rewrite Ha2|].
      rewrite E3. exists (w3, p2). split; [done|].
      split; [eapply r_delete_triples_rinv; [exact HI2|by apply R2|done..]|]. split; [done|]. cbn [fst snd]. split.
      + apply sess_eq; [by rewrite RA, Dr, Ha2, Hr| |by rewrite RO, Dro, Ha2, Hro].
        intros t. rewrite GA, Dt, Ha2, Ht. split.
        * intros [[Hin Hn] Hf]. split; [done|]. split; [done|]. intros b q ->.
          apply (Hnl b q). apply Ht. done.
        * intros (Hin & Hf & Hl). split; [split; [done|]|done].
          intros b q _. split; [|apply Hl]. intros ->. by apply Hf.
      + split; [by rewrite D3, D2, (kr_db _ _ Hcr)|]. split.
        * rewrite R3. pose proof (kr_reg _ _ Hcr) as Hs. clear -Hs R2. set_solver.
        * split; [rewrite UP2; apply Hs1|]. rewrite <- (kr_ub _ _ Hcr), <- BA2.
          apply (delete_triples_added w2 u); [apply Hw2|done].
  Qed.

  (** ** create *)
  Lemma r_create_spec s r S J u c attrs :
    rinv isW s r S J -> u <> 0%N -> u ∉ reg (abs (fst s)) -> u ∉ bdel (ub (fst s)) -> isW c = false ->
    exists s', r_create isW s u c attrs = (s', None) /\ rinv isW s' r S J /\
      abs (fst s') = fst (create (abs (fst s)) u c attrs) /\ db (fst s') = db (fst s) /\
      wreg (fst s') = wreg (fst s) ∪ {[u]} /\ badd (ub (fst s')) = badd (ub (fst s)) ∪ {[u]} /\
      ub (snd s') = ub (snd s).
  Proof.
    destruct s as [w p]. intros HI H0 Hn Hd Hc. cbn [fst snd] in *. unfold r_create. cbn [fst snd].
    pose proof (ri_c _ _ _ _ _ HI) as Hw. cbn [fst] in Hw.
    destruct (w_create_spec isW [] w r u c attrs) as (w' & E & Hw' & Ha & Hdb & Hr & Hb); [done..|].
    rewrite E. exists (w', p). split; [done|]. cbn [fst snd].
    assert (bdel (ub w') = bdel (ub w)) as Hbd.
    { clear -E Hw Hd Hn. unfold w_create in E. case_decide; [done|]. unfold w_store in E.
      destruct (match classes (new_graph u c attrs) u with [] => None | _ => _ end); [done|].
      revert E. rewrite (wi_root _ _ _ Hw). intros [= <-].
      unfold set_cur_buf, cur_buf. rewrite (wi_cur _ _ _ Hw). cbn.
      case_decide; cbn; clear -Hd; set_solver. }
    split; [|done]. constructor; cbn [fst snd]; [done|apply HI|rewrite Hdb; apply HI|].
    rewrite Hr, Hb, Hbd. intros x Hx Hnb. apply not_elem_of_union in Hnb as [Hnb Hne].
    apply (ri_known _ _ _ _ _ HI); cbn [fst]; [|done]. destruct Hx as [Hx|Hx]; [|by right].
    apply elem_of_union in Hx as [Hx|Hx]; [by left|done].
  Qed.
End ops.
