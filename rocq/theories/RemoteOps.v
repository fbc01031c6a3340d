(** Refinement for remote sessions: every operation on a client does to the abstract
    session ([abs] of the client, with the server's visible triples as backend) what
    the same operation of an in-memory session does, and gives the same answer. *)
From stdpp Require Import base sets list gmap countable.
From Verif Require Import Prelude Cuds CudsProofs Wrapper WrapperProofs WrapperRefine WrapperOps WrapperOps2
  WrapperCommit Buffers PropBuffers Remote RemoteServer RemoteClient.

(** The invariant of client and server; S is what the server's session shows. *)
Record rinv (isW : cls -> bool) (s : rsys) (r : uid) (S : sess) (J : graph) : Prop := {
  ri_c : winv isW (fst s) r;
  ri_s : srv isW J (snd s) r S;
  ri_db : view r (db (fst s)) = gr S;
  ri_known : forall u, u ∈ wreg (fst s) \/ u ∈ bdel (ub (fst s)) -> u ∉ badd (ub (fst s)) -> u ∈ wreg (snd s) }.

Definition srel (s s' : rsys) : Prop := crel (fst s) (fst s') /\ ub (snd s') = ub (snd s).

Lemma srel_refl s : srel s s.
Proof. split; [apply crel_refl|done]. Qed.
Lemma srel_trans s1 s2 s3 : srel s1 s2 -> srel s2 s3 -> srel s1 s3.
Proof. intros [A1 A2] [B1 B2]. split; [by eapply crel_trans|congruence]. Qed.

(** A change of the client that concerns only contexts, engine buffers and the expired set. *)
Lemma rinv_same isW w p w' r S J :
  rinv isW (w, p) r S J -> core w' = core w -> ub w' = ub w -> db w' = db w -> cur w' = cur w ->
  (forall u, u ∈ expd w' -> u ∈ wreg w /\ u ∉ badd (ub w) /\ u ∉ bupd (ub w)) ->
  rinv isW (w', p) r S J /\ srel (w, p) (w', p).
Proof.
  intros [Hc Hs Hd Hk] H1 H2 H3 H4 H5. cbn [fst snd] in *. split; [|split; [by apply same_crel|done]].
  constructor; cbn [fst snd].
  - destruct (expire_spec isW w r (expd w') Hc) as (Hw & _).
    apply (winv_quiet isW (fst (expire w (expd w')))); [done|].
    unfold quiet. cbn. split; [done|]. split; [done|]. split; [done|]. split; [done|].
    intros u Hu. destruct (H5 u Hu) as (Q1 & Q2 & Q3). apply elem_of_intersection. split; [|done].
    apply elem_of_union. right. apply elem_of_difference. split; [done|].
    unfold buids. rewrite !not_elem_of_union. split; [done|].
    intros H. by apply (wi_del _ _ _ Hc) in H as [? _].
  - done.
  - by rewrite H3.
  - unfold wreg. rewrite H1, H2. done.
Qed.

Definition gen_ok (miss todo : list uid) (g : option (list (option uid))) (w : wsess) : Prop :=
  match g with
  | None => filter (fun u => u ∈ miss) todo = miss
  | Some l => l = map (found w) (filter (fun u => u ∈ miss) todo) /\
              forall u, u ∈ miss -> u ∈ reg (abs w) -> u ∈ wreg w
  end.

Section ops.
  Context (isW : cls -> bool) (O : onto) (dc : uid -> cls) (order : gset uid -> list uid)
    (Hord : forall X x, x ∈ order X -> x ∈ X).

  Notation r_next := (r_next isW dc order).
  Notation r_loop := (r_loop isW dc order).
  Notation r_load := (r_load isW dc order).

  Definition may_load (w : wsess) (u : uid) : Prop :=
    u <> 0%N /\ u ∉ bdel (ub w) /\ (u ∈ wreg w -> u ∉ badd (ub w) /\ u ∉ bupd (ub w)).

  (** One element of a load, in its engine context. *)
  Lemma r_elem_spec expired miss us u todo g s r S J :
    rinv isW s r S J -> gen_ok miss (u :: todo) g (fst s) ->
    (g = None -> forall x, x ∈ miss -> may_load (fst s) x) ->
    (u ∉ miss -> u ∈ wreg (fst s)) ->
    exists s' g', r_in_engine (r_next expired miss us u g) s = (s', (g', Ok (found (fst s) u))) /\
      rinv isW s' r S J /\ srel s s' /\ gen_ok miss todo g' (fst s') /\
      (u ∈ reg (abs (fst s)) -> u ∈ wreg (fst s')) /\
      ((forall x, x ∈ miss -> x ∈ wreg (fst s)) -> core (fst s') = core (fst s)) /\
      ((g = None /\ u ∈ miss /\ g' <> None /\ forall x, x ∈ miss -> x ∉ expd (fst s')) \/
       (expd (fst s') ⊆ expd (fst s) /\ (u ∈ miss -> g <> None) /\ (g' = None <-> g = None))).
  Proof.
    destruct s as [w p]. intros HI Hg Hmiss Hnm. cbn [fst snd] in *.
    pose proof (ri_c _ _ _ _ _ HI) as Hw. pose proof (ri_s _ _ _ _ _ HI) as Hp. cbn [fst snd] in Hw, Hp.
    unfold r_in_engine, in_engine. cbn [fst snd].
    pose proof (wi_cur _ _ _ Hw) as Hcur. pose proof (wi_root _ _ _ Hw) as Hrt.
    destruct (enter_engine_same w) as (H1 & H2 & H3 & H4 & H5).
    assert (eb (enter_engine w) = no_bufs) as H6.
    { unfold enter_engine. rewrite decide_False by congruence. done. }
    set (w0 := enter_engine w) in *. clearbody w0.
    assert (wreg w0 = wreg w) as Hreg0 by (unfold wreg; by rewrite H1).
    assert (wgr w0 = wgr w) as Hgr0 by (unfold wgr; by rewrite H1).
    assert (abs w0 = abs w) as Habs0 by (by apply abs_ext).
    assert (forall w2, core w2 = core w0 -> ub w2 = ub w0 -> db w2 = db w0 -> expd w2 ⊆ expd w ->
              rinv isW (set_cur w2 (cur w), p) r S J /\ srel (w, p) (set_cur w2 (cur w), p) /\
              abs (set_cur w2 (cur w)) = abs w /\ wreg (set_cur w2 (cur w)) = wreg w) as Hsame.
    { intros w2 E1 E2 E3 E4. destruct (rinv_same isW w p (set_cur w2 (cur w)) r S J HI) as [R1 R2];
        [cbn; congruence|cbn; congruence|cbn; congruence|done| |].
      - cbn. intros x Hx. by apply (wi_exp _ _ _ Hw), E4.
      - split; [done|]. split; [done|]. split; [apply R2|]. unfold wreg. cbn. by rewrite E1, H1. }
    assert (forall x, x ∈ wreg w -> x ∈ reg (abs w)) as Hra.
    { intros x Hx. apply (elem_abs_reg w r); [done|by left]. }
    unfold Remote.r_next. destruct (decide (u ∈ miss)) as [Hm|Hm].
    2: { cbn [fst]. rewrite Hreg0. rewrite decide_True by auto. cbv zeta iota beta.
         destruct (Hsame w0) as (R1 & R2 & R3 & R4); [done|done|done|by rewrite H3|].
         exists (set_cur w0 (cur w), p), g. split.
         { unfold found. rewrite decide_True by auto. done. }
         split; [done|]. split; [done|]. cbn [fst].
         split.
         { unfold gen_ok in Hg |- *. rewrite filter_cons_False in Hg by done. destruct g as [l|]; [|done].
           destruct Hg as [-> Hg]. split; [apply map_ext; intros x; symmetry; by apply found_ext|].
           rewrite R3, R4. done. }
         split; [intros _; rewrite R4; auto|]. split; [intros _; cbn; done|]. right. cbn. rewrite H3. done. }
    unfold r_missing. cbn [fst]. rewrite Hreg0, Hgr0.
    destruct g as [l|].
    - (* the request has been answered *)
      destruct Hg as [-> Hg]. rewrite filter_cons_True by done. cbn [map tail].
      assert (exists w2, (if bool_decide (u ∈ wreg w)
         then fst (expire w0 (set_map snd ((match found w u with Some v => links (wgr w0) v | None => ∅ end ∖ links (wgr w) u)
              ∪ (links (wgr w) u ∖ match found w u with Some v => links (wgr w0) v | None => ∅ end)) ∖ list_to_set us)) else w0) = w2 /\
         core w2 = core w0 /\ ub w2 = ub w0 /\ db w2 = db w0 /\ expd w2 ⊆ expd w) as (w2 & E2 & Q1 & Q2 & Q3 & Q4).
      { destruct (decide (u ∈ wreg w)) as [Hin|Hin].
        - rewrite bool_decide_true by done. eexists. split; [done|]. unfold found.
          rewrite decide_True by auto. rewrite Hgr0. cbn. split; [done|]. split; [done|]. split; [done|].
          intros x Hx. apply elem_of_intersection in Hx as [Hx _]. rewrite H3 in Hx.
          apply elem_of_union in Hx as [Hx|Hx]; [done|]. exfalso.
          apply elem_of_difference in Hx as [Hx _]. apply elem_of_difference in Hx as [Hx _].
          apply elem_of_map in Hx as (y & _ & Hy). clear -Hy. set_solver.
        - rewrite bool_decide_false by done. exists w0. rewrite H3. done. }
      cbv zeta. rewrite E2.
      assert (bool_decide (u ∈ wreg w) && bool_decide (found w u = None) = false) as ->.
      { destruct (decide (u ∈ wreg w)) as [Hin|Hin]; [|by rewrite bool_decide_false].
        unfold found. rewrite decide_True by auto. rewrite (bool_decide_false (Some u = None)) by done.
        by rewrite andb_false_r. }
      cbn [andb].
      destruct (Hsame w2) as (R1 & R2 & R3 & R4); [done|done|done|done|].
      eexists (set_cur w2 (cur w), p), _. split; [done|]. split; [done|]. split; [done|]. cbn [fst].
      split.
      { split; [apply map_ext; intros x; symmetry; by apply found_ext|]. rewrite R3, R4. done. }
      split; [intros Hk; rewrite R4; auto|]. split; [intros _; cbn; congruence|].
      right. cbn. split; [done|]. split; done.
    - (* the request *)
      assert (miss <> []) as Hne. { intros ->. by apply elem_of_nil in Hm. }
      assert (winvE isW w0 r) as Hw0.
      { split; [|split; [done|by rewrite H6]].
        apply (winv_quiet isW w); [done|]. unfold quiet. cbn. rewrite H3. done. }
      destruct (request_load_spec isW dc order Hord expired miss w0 J p r S)
        as (w1 & p1 & E1 & Hw1 & Hp1 & Hcr & Hrp & Hubp & Hin & Hex & Hnew & Hcore).
      { done. } { done. } { rewrite H4. apply HI. } { done. }
      { intros x Hx. rewrite H2, Hreg0. by apply Hmiss. }
      rewrite E1. cbv zeta.
      assert (map (found w0) miss = map (found w) miss) as Hfm.
      { apply map_ext. intros x. unfold found. by rewrite Habs0. }
      unfold gen_ok in Hg. rewrite filter_cons_True in Hg by done.
      assert (map (found w0) miss = found w u :: map (found w) (filter (fun x => x ∈ miss) todo)) as ->.
      { rewrite Hfm. rewrite <- Hg at 1. done. }
      cbn [tail].
      assert (exists w2, (if bool_decide (u ∈ wreg w)
         then fst (expire w1 (set_map snd ((match found w u with Some v => links (wgr w1) v | None => ∅ end ∖ links (wgr w) u)
              ∪ (links (wgr w) u ∖ match found w u with Some v => links (wgr w1) v | None => ∅ end)) ∖ list_to_set us)) else w1) = w2 /\
         core w2 = core w1 /\ ub w2 = ub w1 /\ db w2 = db w1 /\ cur w2 = cur w1 /\ expd w2 ⊆ expd w1)
        as (w2 & E2 & Q1 & Q2 & Q3 & Q5 & Q4).
      { destruct (decide (u ∈ wreg w)) as [Hi|Hi].
        - rewrite bool_decide_true by done. eexists. split; [done|]. unfold found.
          rewrite decide_True by auto.
          assert (links (wgr w1) u = links (wgr w) u) as ->.
          { apply set_eq. intros [q v]. rewrite !elem_links. rewrite <- Hgr0. apply (kr_gr _ _ Hcr). by rewrite Hreg0. }
          cbn. split; [done|]. split; [done|]. split; [done|]. split; [done|].
          intros x Hx. apply elem_of_intersection in Hx as [Hx _].
          apply elem_of_union in Hx as [Hx|Hx]; [done|]. exfalso.
          apply elem_of_difference in Hx as [Hx _]. apply elem_of_difference in Hx as [Hx _].
          apply elem_of_map in Hx as (y & _ & Hy). clear -Hy. set_solver.
        - rewrite bool_decide_false by done. exists w1. done. }
      rewrite E2.
      assert (bool_decide (u ∈ wreg w) && bool_decide (found w u = None) = false) as ->.
      { destruct (decide (u ∈ wreg w)) as [Hi|Hi]; [|by rewrite bool_decide_false].
        unfold found. rewrite decide_True by auto. rewrite (bool_decide_false (Some u = None)) by done.
        by rewrite andb_false_r. }
      cbn [andb].
      assert (crel w (set_cur w2 (cur w))) as Hcr2.
      { eapply crel_trans; [apply (same_crel w w0); done|]. eapply crel_trans; [exact Hcr|]. by apply same_crel. }
      assert (wreg (set_cur w2 (cur w)) = wreg w1) as Hr2. { unfold wreg. cbn. by rewrite Q1. }
      eexists (set_cur w2 (cur w), p1), _. split; [done|]. split.
      { constructor; cbn [fst snd].
        - destruct Hw1 as (Hw1 & _). apply (winv_quiet isW (set_cur w1 USER)); [done|].
          unfold quiet. cbn. rewrite Hcur. done.
        - done.
        - rewrite (kr_db _ _ Hcr2). apply HI.
        - intros x. rewrite (kr_ub _ _ Hcr2), Hr2. intros [Hx|Hx] Hnb.
          + apply Hnew in Hx as [Hx|Hx]; [|done]. rewrite Hreg0 in Hx. apply Hrp.
            apply (ri_known _ _ _ _ _ HI); [by left|done].
          + apply Hrp. apply (ri_known _ _ _ _ _ HI); [by right|done]. }
      split; [split; [done|done]|]. cbn [fst].
      split.
      { split; [apply map_ext; intros x; symmetry; apply found_ext; apply Hcr2|].
        intros x Hx. rewrite (kr_abs _ _ Hcr2), Hr2. intros Hk. apply Hin; [done|]. by rewrite Habs0. }
      split. { intros Hk. rewrite Hr2. apply Hin; [done|]. by rewrite Habs0. }
      split. { intros Hall. cbn. rewrite Q1, Hcore; [done|]. intros x Hx. rewrite Hreg0. auto. }
      left. split; [done|]. split; [done|]. split; [done|]. intros x Hx. cbn. intros H. apply Q4 in H. by apply Hex in Hx.
  Qed.

  Lemma may_load_rel w w' u : crel w w' -> may_load w u -> (u ∈ wreg w' -> u ∉ badd (ub w') /\ u ∉ bupd (ub w')) -> may_load w' u.
  Proof. intros Hc (M1 & M2 & M3) H. split; [done|]. split; [by rewrite (kr_ub _ _ Hc)|done]. Qed.

  Lemma r_loop_spec expired miss us todo : forall g s r S J,
    rinv isW s r S J -> gen_ok miss todo g (fst s) ->
    (g = None -> forall x, x ∈ miss -> may_load (fst s) x) ->
    (forall u, u ∈ todo -> u ∉ miss -> u ∈ wreg (fst s)) ->
    exists s', r_loop expired miss us todo g s = (s', Ok (map (found (fst s)) todo)) /\
      rinv isW s' r S J /\ srel s s' /\
      (forall u, u ∈ todo -> u ∈ reg (abs (fst s)) -> u ∈ wreg (fst s')) /\
      ((forall x, x ∈ miss -> x ∈ wreg (fst s)) -> core (fst s') = core (fst s)) /\
      (g <> None -> expd (fst s') ⊆ expd (fst s)) /\
      (g = None -> forall x, x ∈ miss -> x ∉ expd (fst s')).
  Proof.
    induction todo as [|u todo IH]; intros g s r S J HI Hg Hmiss Hnm; simpl.
    { exists s. split; [done|]. split; [done|]. split; [apply srel_refl|]. split; [intros u Hu; by apply elem_of_nil in Hu|].
      split; [done|]. split; [done|]. intros -> x Hx. unfold gen_ok in Hg. rewrite <- Hg in Hx. by apply elem_of_nil in Hx. }
    destruct (r_elem_spec expired miss us u todo g s r S J HI Hg Hmiss) as
      (s1 & g1 & -> & HI1 & Hs1 & Hg1 & Hin1 & Hc1 & Hx1); [by intros; apply Hnm; [left|]|].
    pose proof (proj1 Hs1) as Hcr.
    destruct (IH g1 s1 r S J HI1 Hg1) as (s2 & E2 & HI2 & Hs2 & Hin2 & Hc2 & Hx2 & Hy2).
    { intros -> x Hx. destruct Hx1 as [(_ & _ & ? & _)|(Hsub & _ & Hiff)]; [done|].
      assert (g = None) as Hgn by by apply Hiff. pose proof (Hmiss Hgn x Hx) as (M1 & M2 & M3).
      split; [done|]. rewrite (kr_ub _ _ Hcr). split; [done|]. intros _.
      destruct (decide (x ∈ wreg (fst s))) as [Hi|Hi]; [by apply M3|].
      pose proof (ri_c _ _ _ _ _ HI) as Hw.
      split; intros H; [by apply (wi_add _ _ _ Hw) in H as [? _]|by apply (wi_upd _ _ _ Hw) in H as [? _]]. }
    { intros x Hx Hn. apply (kr_reg _ _ Hcr), Hnm; [by right|done]. }
    rewrite E2. exists s2. split.
    { f_equal. simpl. do 2 f_equal. apply map_ext. intros x. apply found_ext, Hcr. }
    split; [done|]. split; [by eapply srel_trans|]. split.
    { intros x Hx Hk. apply elem_of_cons in Hx as [->|Hx].
      - apply (kr_reg _ _ (proj1 Hs2)). auto.
      - apply Hin2; [done|]. by rewrite (kr_abs _ _ Hcr). }
    split. { intros Hall. rewrite Hc2, Hc1; [done|done|]. intros x Hx. apply (kr_reg _ _ Hcr). auto. }
    split.
    - intros Hgn. destruct Hx1 as [(? & _)|(Hsub & _ & Hiff)]; [done|].
      etrans; [|exact Hsub]. apply Hx2. by intros H%Hiff.
    - intros -> x Hx. destruct Hx1 as [(_ & _ & Hg1n & Hall)|(Hsub & _ & Hiff)].
      + intros H. by apply (Hall x Hx), Hx2.
      + apply Hy2; [by apply Hiff|done].
  Qed.

  Lemma prelude_rinv s r S J us : rinv isW s r S J ->
    rinv isW (load_prelude (fst s) us, snd s) r S J /\ srel s (load_prelude (fst s) us, snd s).
  Proof.
    destruct s as [w p]. intros HI. apply (rinv_same isW w p); try done.
    cbn. intros u Hu. apply (wi_exp _ _ _ (ri_c _ _ _ _ _ HI)). cbn [fst]. clear -Hu. set_solver.
  Qed.

  Lemma missing_facts s r S J us (u : uid) : rinv isW s r S J ->
    (u ∈ missing_uids (fst s) us -> u <> 0%N -> u ∉ bdel (ub (fst s)) -> may_load (fst s) u) /\
    (u ∈ us -> u ∉ missing_uids (fst s) us -> u ∈ wreg (fst s)).
  Proof.
    intros HI. pose proof (ri_c _ _ _ _ _ HI) as Hw. unfold missing_uids. rewrite elem_of_list_filter. split.
    - intros [Hm _] H0 Hd. split; [done|]. split; [done|]. intros Hi. destruct Hm as [?|He]; [done|].
      by apply (wi_exp _ _ _ Hw) in He as (_ & ? & ?).
    - intros Hu Hn. destruct (decide (u ∈ wreg (fst s))) as [|Hi]; [done|]. destruct Hn. tauto.
  Qed.

  Lemma filter_ext_in {A} (P Q : A -> Prop) `{forall x, Decision (P x)} `{forall x, Decision (Q x)} (l : list A) :
    (forall x, x ∈ l -> P x <-> Q x) -> filter P l = filter Q l.
  Proof.
    induction l as [|x l IH]; intros HPQ; [done|]. rewrite !filter_cons. rewrite IH by (intros y Hy; apply HPQ; by right).
    pose proof (HPQ x ltac:(by left)). repeat case_decide; tauto.
  Qed.

  Lemma gen_missing w us : gen_ok (missing_uids w us) us None w.
  Proof.
    unfold gen_ok, missing_uids. apply filter_ext_in. intros x Hx. rewrite elem_of_list_filter. tauto.
  Qed.

  (** load() gives what the abstract session gives. *)
  Lemma r_load_spec s r S J us :
    rinv isW s r S J -> (forall u, u ∈ us -> u <> 0%N /\ u ∉ bdel (ub (fst s))) ->
    exists s', r_load s us = (s', Ok (load (abs (fst s)) us)) /\
      rinv isW s' r S J /\ srel s s' /\
      (forall u, u ∈ us -> u ∈ reg (abs (fst s)) -> u ∈ wreg (fst s')) /\
      (forall u, u ∈ missing_uids (fst s) us -> u ∉ expd (fst s')) /\
      ((forall u, u ∈ us -> u ∈ wreg (fst s)) -> core (fst s') = core (fst s)) /\
      (us = [] -> expd (fst s') ⊆ expd (fst s)).
  Proof.
    destruct s as [w p]. intros HI Hus. unfold Remote.r_load.
    pose proof (wi_root _ _ _ (ri_c _ _ _ _ _ HI)) as Hrt. cbn [fst] in Hrt. rewrite Hrt.
    destruct (prelude_rinv (w, p) r S J us HI) as [HI0 Hs0]. cbn [fst snd] in *.
    destruct (r_loop_spec (list_to_set us ∩ expd w) (missing_uids w us) us us None (load_prelude w us, p) r S J HI0)
      as (s1 & E1 & HI1 & Hs1 & Hin1 & Hc1 & _ & Hx1).
    { apply gen_missing. }
    { intros _ x Hx. assert (x ∈ us) as Hxu. { unfold missing_uids in Hx. by apply elem_of_list_filter in Hx as [_ ?]. }
      destruct (Hus x Hxu). by apply (missing_facts (w, p) r S J us x HI). }
    { intros u Hu Hn. by apply (missing_facts (w, p) r S J us u HI). }
    pose proof (kr_abs _ _ (proj1 Hs0)) as Ha. cbn [fst] in *.
    exists s1. split. { rewrite E1. unfold load, found. by rewrite Ha. }
    split; [done|]. split; [by eapply srel_trans|]. split; [by rewrite <- Ha|].
    split; [by apply Hx1|]. split.
    - intros Hall. rewrite Hc1; [done|]. intros x Hx. apply Hall. unfold missing_uids in Hx. by apply elem_of_list_filter in Hx as [_ ?].
    - intros ->. cbn in E1. injection E1 as <-. cbn. clear. set_solver.
  Qed.

  Lemma r_refresh_spec s r S J us :
    rinv isW s r S J -> exists s', r_refresh isW dc order s us = (s', None) /\ rinv isW s' r S J /\
      srel s s' /\ core (fst s') = core (fst s) /\
      (forall u, u ∈ us -> u ∈ wreg (fst s) -> u ∉ buids (ub (fst s)) -> u ∉ expd (fst s')).
  Proof.
    destruct s as [w p]. intros HI. unfold r_refresh. destruct us as [|u0 us].
    { exists (w, p). split; [done|]. split; [done|]. split; [apply srel_refl|]. split; [done|].
      intros u Hu. by apply elem_of_nil in Hu. }
    cbn [fst snd]. set (X := list_to_set (u0 :: us) : gset uid).
    destruct (rinv_same isW w p (fst (expire w X)) r S J HI) as [HI1 Hs1]; [done..| |].
    { cbn. intros u Hu. apply elem_of_intersection in Hu as [Hu Hur]. split; [done|].
      apply elem_of_union in Hu as [Hu|Hu]; [by apply (wi_exp _ _ _ (ri_c _ _ _ _ _ HI)) in Hu as (_ & ? & ?)|].
      apply elem_of_difference in Hu as [_ Hu]. revert Hu. unfold buids. rewrite !not_elem_of_union. tauto. }
    destruct (expire w X) as [w1 ids] eqn:E. cbn [fst] in HI1, Hs1.
    assert (core w1 = core w /\ ub w1 = ub w /\ ids = X ∖ buids (ub w) ∩ wreg w /\
            expd w1 = (expd w ∪ X ∖ buids (ub w)) ∩ wreg w) as (Hc1 & Hu1 & Hids & Hx1).
    { unfold expire in E. injection E as <- <-. done. }
    destruct (r_load_spec (w1, p) r S J (elements ids) HI1) as (s2 & -> & HI2 & Hs2 & _ & Hx2 & Hc2 & _).
    { intros u Hu. apply elem_of_elements in Hu. cbn [fst]. apply (abs_reg_facts isW w1 r); [apply HI1|].
      apply (elem_abs_reg w1 r); [apply (wi_root _ _ _ (ri_c _ _ _ _ _ HI1))|]. left.
      unfold wreg. rewrite Hc1. rewrite Hids in Hu. by apply elem_of_intersection in Hu as [_ ?]. }
    exists s2. split; [done|]. split; [done|]. split; [by eapply srel_trans|]. split.
    - rewrite Hc2; [done|]. intros u Hu. apply elem_of_elements in Hu. cbn [fst]. unfold wreg. rewrite Hc1.
      rewrite Hids in Hu. by apply elem_of_intersection in Hu as [_ ?].
    - intros u Hu Hr Hb. apply Hx2. cbn [fst]. unfold missing_uids. apply elem_of_list_filter.
      assert (u ∈ X) as HuX by (subst X; by apply elem_of_list_to_set). split.
      + right. rewrite Hx1. apply elem_of_intersection. split; [|done]. apply elem_of_union. right.
        by apply elem_of_difference.
      + apply elem_of_elements. rewrite Hids. apply elem_of_intersection. split; [|done]. by apply elem_of_difference.
  Qed.

  (** Reading an object that the client has. *)
  Lemma r_notify_read_spec s r S J u :
    rinv isW s r S J -> u ∈ wreg (fst s) ->
    exists s', r_notify_read isW dc order s u = (s', None) /\ rinv isW s' r S J /\ srel s s' /\
      core (fst s') = core (fst s) /\ u ∉ expd (fst s').
  Proof.
    intros HI Hu. unfold r_notify_read. case_decide as He.
    2: { exists s. split; [done|]. split; [done|]. split; [apply srel_refl|]. done. }
    destruct (r_refresh_spec s r S J [u] HI) as (s' & -> & HI' & Hs' & Hc' & Hx'). exists s'.
    split; [done|]. split; [done|]. split; [done|]. split; [done|].
    apply Hx'; [by left|done|]. pose proof (ri_c _ _ _ _ _ HI) as Hw.
    destruct (wi_exp _ _ _ Hw u He) as (_ & Ha & Hb). unfold buids. rewrite !not_elem_of_union. split; [done|].
    intros H. by apply (wi_del _ _ _ Hw) in H as [? _].
  Qed.

  (** ** Writing *)
  Definition rwrote (r : uid) (S : sess) (J : graph) (s s' : rsys) (a' : sess) : Prop :=
    rinv isW s' r S J /\ abs (fst s') = a' /\ wreg (fst s) ⊆ wreg (fst s') /\ db (fst s') = db (fst s) /\
    bdel (ub (fst s')) = bdel (ub (fst s)) /\ badd (ub (fst s')) = badd (ub (fst s)) /\
    bupd (ub (fst s)) ⊆ bupd (ub (fst s')) /\ ub (snd s') = ub (snd s).

  Lemma rwrote_trans r S J s1 s2 s3 a2 a3 :
    rwrote r S J s1 s2 a2 -> rwrote r S J s2 s3 a3 -> rwrote r S J s1 s3 a3.
  Proof.
    intros (A1 & A2 & A3 & A4 & A5 & A6 & A7 & A8) (B1 & B2 & B3 & B4 & B5 & B6 & B7 & B8).
    split; [done|]. split; [done|]. split; [by etrans|]. split; [congruence|]. split; [congruence|].
    split; [congruence|]. split; [by etrans|congruence].
  Qed.

  Lemma srel_rwrote r S J s s' : rinv isW s' r S J -> srel s s' -> rwrote r S J s s' (abs (fst s)).
  Proof.
    intros HI [[K1 K2 K3 K4 K5] H]. split; [done|]. split; [done|]. split; [done|]. split; [done|].
    rewrite K2. done.
  Qed.

  Lemma r_write_spec f s r S J u keep new :
    rinv isW s r S J -> u ∈ wreg (fst s) -> writes f u keep new ->
    (forall c, keep (TType c)) -> (forall c, ~ new (TType c)) ->
    (forall q v, new (TLink q v) -> v ∈ wreg (fst s)) ->
    exists s', r_write isW dc order f s u = (s', None) /\ rwrote r S J s s' (f (abs (fst s))) /\
      wreg (fst s') = wreg (fst s) /\ ub (fst s') = mark u (ub (fst s)).
  Proof.
    intros HI Hu Hf Hkt Hnt Hnl. unfold r_write.
    destruct (r_notify_read_spec s r S J u HI Hu) as ([w1 p1] & -> & HI1 & Hs1 & Hc1 & Hx1).
    cbn [fst snd] in *. pose proof (ri_c _ _ _ _ _ HI1) as Hw1. cbn [fst] in Hw1.
    assert (wreg w1 = wreg (fst s)) as Hr1 by (unfold wreg; by rewrite Hc1).
    destruct (w_write_spec isW f w1 r u keep new Hw1) as (w2 & E2 & Hw2 & Ha2 & Hc2 & Hd2 & Hu2 & He2 & Hx2);
      [by rewrite Hr1|done|done|done|by rewrite Hr1|].
    unfold w_write, notify_read in E2. rewrite decide_False in E2 by done.
    assert (u ∈ wreg w1) as Hu1 by (by rewrite Hr1).
    rewrite decide_True in E2 by done. rewrite decide_True by done. rewrite E2.
    exists (w2, p1). split; [done|]. pose proof (proj1 Hs1) as Hcr. cbn [fst] in Hcr.
    assert (wreg w2 = wreg (fst s)) as Hr2.
    { unfold wreg. rewrite Hc2. destruct (Hf (core w1)) as (-> & _). by rewrite Hc1. }
    assert (ub w2 = mark u (ub (fst s))) as Hub2. { by rewrite Hu2, (kr_ub _ _ Hcr). }
    split; [|done]. split.
    { constructor; cbn [fst snd].
      - done.
      - apply HI1.
      - rewrite Hd2. apply HI1.
      - rewrite Hr2, Hub2, mark_del, mark_add. intros x Hx Hb. apply (ri_known _ _ _ _ _ HI1); cbn [fst];
          [rewrite Hr1, (kr_ub _ _ Hcr); done|rewrite (kr_ub _ _ Hcr); done]. }
    cbn [fst snd]. split; [by rewrite Ha2, (kr_abs _ _ Hcr)|]. rewrite Hr2, Hub2, mark_del, mark_add.
    split; [done|]. split; [by rewrite Hd2, (kr_db _ _ Hcr)|]. split; [done|]. split; [done|].
    split; [|apply Hs1]. unfold mark. case_decide; [done|]. cbn. clear. set_solver.
  Qed.

  Lemma r_link_spec s r S J a q b :
    rinv isW s r S J -> a ∈ wreg (fst s) -> b ∈ wreg (fst s) ->
    exists s', r_link isW dc order s a q b = (s', None) /\ wreg (fst s') = wreg (fst s) /\
      rwrote r S J s s' (set_gr (abs (fst s)) (add_direct (gr (abs (fst s))) a q b)).
  Proof.
    intros HI Ha Hb.
    destruct (r_write_spec _ s r S J a _ _ HI Ha (link_writes a q b)) as (s' & E & W & R & U);
      [done|done|by intros q' v [= -> ->]|].
    exists s'. split; [exact E|]. done.
  Qed.

  Lemma r_unlink_spec s r S J a q b :
    rinv isW s r S J -> a ∈ wreg (fst s) ->
    exists s', r_unlink isW dc order s a q b = (s', None) /\ wreg (fst s') = wreg (fst s) /\
      rwrote r S J s s' (set_gr (abs (fst s)) (remove_direct (gr (abs (fst s))) a q b)) /\
      ub (fst s') = mark a (ub (fst s)).
  Proof.
    intros HI Ha.
    destruct (r_write_spec _ s r S J a _ _ HI Ha (unlink_writes a q b)) as (s' & E & W & R & U);
      [done|tauto|tauto|].
    exists s'. split; [exact E|]. done.
  Qed.

  Lemma r_set_attr_spec s r S J u a l :
    rinv isW s r S J -> u ∈ wreg (fst s) ->
    exists s', r_set_attr isW dc order s u a l = (s', None) /\ wreg (fst s') = wreg (fst s) /\
      rwrote r S J s s' (set_attr (abs (fst s)) u a l).
  Proof.
    intros HI Hu.
    destruct (r_write_spec _ s r S J u _ _ HI Hu (attr_writes u a l)) as (s' & E & W & R & U);
      [done|done|done|].
    exists s'. split; [exact E|]. done.
  Qed.

  Lemma r_add_spec a q bs : forall s r S J,
    rinv isW s r S J -> a ∈ wreg (fst s) -> (forall b, b ∈ bs -> b ∈ wreg (fst s)) ->
    exists s', r_add isW O dc order s a q bs = (s', snd (add O (abs (fst s)) a q bs)) /\
      rwrote r S J s s' (fst (add O (abs (fst s)) a q bs)).
  Proof.
    induction bs as [|b bs IH]; intros s r S J HI Ha Hbs; simpl.
    { exists s. split; [done|]. apply srel_rwrote; [done|apply srel_refl]. }
    destruct (r_notify_read_spec s r S J a HI Ha) as (s0 & -> & HI0 & Hs0 & Hc0 & _).
    pose proof (srel_rwrote r S J _ _ HI0 Hs0) as Hq0.
    assert (wreg (fst s0) = wreg (fst s)) as Hr0 by (unfold wreg; by rewrite Hc0).
    assert (abs (fst s0) = abs (fst s)) as Ha0 by apply Hq0.
    rewrite Hr0. rewrite bool_decide_true by done. cbn [andb].
    rewrite <- (linked_abs isW (fst s0) r) by (rewrite ?Hr0; apply HI0 || done). rewrite Ha0.
    destruct (linked (gr (abs (fst s))) a q b) eqn:El.
    { exists s0. done. }
    destruct (r_link_spec s0 r S J a q b) as (s1 & E1 & R1 & W1); [done|by rewrite Hr0|rewrite Hr0; apply Hbs; by left|].
    rewrite E1. pose proof (proj1 W1) as HI1. pose proof (proj1 (proj2 W1)) as Ha1.
    destruct (r_link_spec s1 r S J b (o_inv O q) a) as (s2 & E2 & R2 & W2);
      [done|rewrite R1, Hr0; apply Hbs; by left|by rewrite R1, Hr0|].
    rewrite E2. pose proof (proj1 W2) as HI2. pose proof (proj1 (proj2 W2)) as Ha2. rewrite Ha1, Ha0 in Ha2. simpl in Ha2.
    destruct (IH s2 r S J) as (s3 & E3 & W3);
      [done|by rewrite R2, R1, Hr0|intros x Hx; rewrite R2, R1, Hr0; apply Hbs; by right|].
    rewrite E3. unfold set_gr in Ha2; simpl in Ha2. unfold set_gr. rewrite Ha2 in W3 |- *.
    destruct (add O _ a q bs) as [s' res] eqn:E4 in W3 |- *.
    exists s3. split; [done|]. simpl in *.
    eapply rwrote_trans; [exact Hq0|]. eapply rwrote_trans; [exact W1|].
    eapply rwrote_trans; [exact W2|]. done.
  Qed.
End ops.
