(** commit() of a remote session: what the client sends is merged into the server's
    session, which commits it; afterwards both agree with the backend. *)
From stdpp Require Import base sets list gmap countable.
From Verif Require Import Prelude Cuds CudsProofs Wrapper WrapperProofs WrapperRefine WrapperOps WrapperOps2
  WrapperCommit Buffers PropBuffers Remote RemoteServer RemoteClient RemoteOps RemoteOps2.

Lemma abs_addj J w r : wroot w = Some r -> dead J w -> abs (addj J w) = abs w.
Proof.
  intros Hr HJ. apply sess_eq.
  - intros u. rewrite !(elem_abs_reg _ r) by done. done.
  - intros [u q]. rewrite !(elem_abs _ r) by done.
    change (wreg (addj J w)) with (wreg w). change (wgr (addj J w)) with (wgr w ∪ J).
    change (ub (addj J w)) with (ub w). change (db (addj J w)) with (db w).
    rewrite elem_of_union. split; [|tauto]. intros [[H1 [H2|H2]]|H]; [tauto| |tauto].
    apply HJ in H2 as [H2 _]. destruct H2. apply (elem_abs_reg w r); [done|]. by left.
  - unfold abs. change (wroot (addj J w)) with (wroot w). by rewrite Hr.
Qed.

Section merge.
  Context (isW : cls -> bool) (dc : uid -> cls).
  Context (w p0 p1 : wsess) (J : graph) (r : uid).
  Context (Hw : winv isW w r).
  Context (Hp : winv isW p0 r).
  Context (HJ : dead J p0).
  Context (Hdd : bdel (ub p0) = ∅).
  Context (Hdb : view r (db w) = gr (abs p0)).
  Context (Hkn : forall u, u ∈ wreg w \/ u ∈ bdel (ub w) -> u ∉ badd (ub w) -> u ∈ wreg p0).
  Context (Hrn : r ∉ badd (ub w)).
  Context (Hap : applied dc w (ub w) (expd w) (addj J p0) p1 (ub p0) (ub p1)).

  Let q := set_wgr p1 (filter (fun t : uid * po => fst t ∈ reg (abs w)) (wgr p1)).
  Let J1 : graph := filter (fun t : uid * po => fst t ∉ reg (abs w)) (wgr p1).

  Local Lemma m_bdel_w u : u ∈ bdel (ub w) -> u ∉ reg (abs w).
  Proof.
    intros Hu Hr. apply (elem_abs_reg w r) in Hr; [|apply Hw].
    destruct (wi_del _ _ _ Hw u Hu) as [Hn _]. tauto.
  Qed.
  Local Lemma m_reg_view u : u ∈ reg (abs p0) -> exists c, (u, TType c) ∈ view r (db w).
  Proof. intros Hu. destruct (wi_typed _ _ _ Hp u Hu) as [c Hc]. exists c. by rewrite Hdb. Qed.
  Local Lemma m_view_reg u x : (u, x) ∈ view r (db w) -> u ∈ reg (abs p0).
  Proof.
    rewrite Hdb. intros Hc. apply (elem_abs p0 r) in Hc; [|apply Hp]. apply (elem_abs_reg p0 r); [apply Hp|].
    destruct Hc as [[? _]|(_ & ? & ?)]; [by left|right; eauto].
  Qed.
  Local Lemma m_known u : u ∈ reg (abs p0) -> u ∉ bdel (ub w) -> u ∈ reg (abs w).
  Proof.
    intros Hu Hd. apply m_reg_view in Hu as [c Hc]. apply (elem_abs_reg w r); [apply Hw|]. right. eauto.
  Qed.
  Local Lemma m_reg_p u : u ∈ wreg p0 -> u ∈ reg (abs p0).
  Proof. intros Hu. apply (elem_abs_reg p0 r); [apply Hp|]. by left. Qed.
  (* new objects are unknown to the server *)
  Local Lemma m_new u : u ∈ badd (ub w) -> u ∉ reg (abs p0).
  Proof.
    intros Hu Hr. destruct (wi_add _ _ _ Hw u Hu) as [_ Hn]. apply m_reg_view in Hr as [c Hc].
    apply (Hn) in Hc; [done|]. intros ->. done.
  Qed.
  Local Lemma m_view_p u x : u ∉ wreg p0 -> (u, x) ∈ view r (db p0) <-> (u, x) ∈ view r (db w).
  Proof.
    intros Hu. rewrite Hdb, (elem_abs p0 r) by apply Hp. split; [|tauto].
    intros Hv. right. split; [done|]. split; [|done]. rewrite Hdd. apply not_elem_of_empty.
  Qed.
  Local Lemma m_wreg u x : u ∈ wreg p0 -> (u, x) ∈ wgr p0 <-> (u, x) ∈ view r (db w).
  Proof. intros Hu. rewrite Hdb, (elem_abs p0 r) by apply Hp. tauto. Qed.
  (* a type that the client sends of an object it does not change *)
  Local Lemma m_sent u x : u ∉ buids (ub w) -> sent_type (wgr w) (badd (ub w) ∪ bupd (ub w)) u x ->
    (u, x) ∈ view r (db w) /\ exists c, x = TType c.
  Proof.
    intros Hu (Hin & [c ->] & _). split; [|eauto].
    destruct (decide (u ∈ wreg w)) as [Hr|Hr].
    - by apply (wi_same _ _ _ Hw u Hr Hu).
    - by apply (wi_out _ _ _ Hw u _ Hr) in Hin as [? _].
  Qed.
  Local Lemma m_reg1 u : u ∈ wreg p1 <-> (u ∈ wreg p0 \/ u ∈ badd (ub w)) /\ u ∉ bdel (ub w).
  Proof. rewrite (ap_objects _ _ _ _ _ _ _ _ Hap), elem_of_difference, elem_of_union. done. Qed.
  Local Lemma m_own u x : u ∈ badd (ub w) \/ u ∈ bupd (ub w) -> (u, x) ∈ wgr p1 <-> (u, x) ∈ wgr w.
  Proof.
    intros Hu. pose proof (ap_same _ _ _ _ _ _ _ _ Hap u) as H. rewrite elem_of_union in H. specialize (H Hu).
    assert ((u, x) ∈ triples_of (wgr p1) u <-> (u, x) ∈ triples_of (wgr w) u) as H' by (by rewrite H).
    rewrite !elem_triples_of in H'. simpl in H'. tauto.
  Qed.
  Local Lemma m_buids u : u ∈ buids (ub w) <-> u ∈ badd (ub w) \/ u ∈ bupd (ub w) \/ u ∈ bdel (ub w).
  Proof. unfold buids. rewrite !elem_of_union. tauto. Qed.
  Local Lemma m_pending : ub p1 = Bufs ((badd (ub p0) ∪ badd (ub w)) ∖ bdel (ub w))
     ((bupd (ub p0) ∪ (bupd (ub w) ∖ badd (ub p0))) ∖ bdel (ub w)) (bdel (ub w) ∖ badd (ub p0)).
  Proof. rewrite (ap_pending _ _ _ _ _ _ _ _ Hap), Hdd. f_equal. by rewrite (left_id_L ∅ (∪)). Qed.
  (* an object the client does not change, known to the server *)
  Local Lemma m_other u x : u ∉ buids (ub w) -> u ∈ reg (abs p0) -> u ∈ wreg p0 ->
    (u, x) ∈ wgr p1 <-> (u, x) ∈ view r (db w).
  Proof.
    intros Hu Hr Hp'. rewrite (ap_others _ _ _ _ _ _ _ _ Hap u x Hu).
    change (wgr (addj J p0)) with (wgr p0 ∪ J). rewrite elem_of_union, (m_wreg u x Hp'). split; [|tauto].
    intros [[H|H]|H]; [done| |].
    - by apply HJ in H as [H _].
    - by apply m_sent in H as [H _].
  Qed.
  Local Lemma m_root1 : wroot p1 = Some r.
  Proof. rewrite (proj1 (ap_rest _ _ _ _ _ _ _ _ Hap)). apply (wi_root _ _ _ Hp). Qed.
  Local Lemma m_db1 : db p1 = db p0.
  Proof. apply (proj1 (proj2 (ap_rest _ _ _ _ _ _ _ _ Hap))). Qed.

  Local Lemma m_wq u x : (u, x) ∈ wgr q <-> (u, x) ∈ wgr p1 /\ u ∈ reg (abs w).
  Proof. change (wgr q) with (filter (fun t : uid * po => fst t ∈ reg (abs w)) (wgr p1)). rewrite elem_of_filter. simpl. tauto. Qed.

  (* what is in the backend of the server's session and pending there *)
  Local Lemma m_backend u : u ∈ bupd (ub w) \/ u ∈ bdel (ub w) -> u ∉ badd (ub p0) ->
    u ∈ wreg p0 /\ exists x, (u, x) ∈ view r (db p0).
  Proof.
    intros Hu Hn.
    assert (u ∉ badd (ub w)) as Hna.
    { intros H. destruct Hu as [Hu|Hu]; [by apply (wi_dis _ _ _ Hw u)|].
      apply (wi_add _ _ _ Hw) in H as [H _]. by apply (wi_del _ _ _ Hw) in Hu as [? _]. }
    assert (u ∈ wreg p0) as Hr.
    { apply Hkn; [|done]. destruct Hu as [Hu|Hu]; [left; by apply (wi_upd _ _ _ Hw)|by right]. }
    split; [done|]. destruct (decide (u ∈ bupd (ub p0))) as [Hb|Hb]; [by apply (wi_upd _ _ _ Hp) in Hb as [_ ?]|].
    destruct (wi_typed _ _ _ Hp u (m_reg_p u Hr)) as [c Hc]. apply (elem_abs p0 r) in Hc; [|apply Hp].
    exists (TType c). destruct Hc as [[_ Hc]|(? & _)]; [|done].
    apply (wi_same _ _ _ Hp u Hr); [|done]. unfold buids. rewrite !not_elem_of_union, Hdd.
    split; [done|]. apply not_elem_of_empty.
  Qed.

  Local Lemma m_abs_gr u x : (u, x) ∈ gr (abs q) <-> (u, x) ∈ gr (abs w).
  Proof.
    rewrite (elem_abs q r) by apply m_root1. rewrite (elem_abs w r) by apply Hw.
    change (wreg q) with (wreg p1). change (ub q) with (ub p1). change (db q) with (db p1).
    rewrite m_wq, m_db1.
    destruct (decide (u ∈ badd (ub w) \/ u ∈ bupd (ub w))) as [Hu|Hu].
    { assert (u ∈ wreg w) as Hr. { destruct Hu as [Hu|Hu]; [by apply (wi_add _ _ _ Hw)|by apply (wi_upd _ _ _ Hw)]. }
      assert (u ∉ bdel (ub w)) as Hnd. { intros H. by apply (wi_del _ _ _ Hw) in H as [? _]. }
      assert (u ∈ wreg p1) as Hr1.
      { apply m_reg1. split; [|done]. destruct (decide (u ∈ badd (ub w))); [by right|left]. apply Hkn; [by left|done]. }
      rewrite (m_own u x Hu). assert (u ∈ reg (abs w)). { apply (elem_abs_reg w r); [apply Hw|by left]. } tauto. }
    destruct (decide (u ∈ bdel (ub w))) as [Hd|Hd].
    { pose proof (wi_del _ _ _ Hw u Hd) as [Hn _].
      assert (u ∉ wreg p1) as Hn1. { rewrite m_reg1. tauto. }
      split; [|tauto]. intros [[? _]|(_ & Hb & Hv)]; [done|]. exfalso.
      rewrite m_pending in Hb. simpl in Hb. rewrite elem_of_difference in Hb.
      assert (u ∈ badd (ub p0)) as Ha. { destruct (decide (u ∈ badd (ub p0))); [done|tauto]. }
      destruct (wi_add _ _ _ Hp u Ha) as [_ Hnv]. apply Hnv in Hv; [done|]. intros ->. by destruct (Hn (wi_rreg _ _ _ Hw)). }
    assert (u ∉ buids (ub w)) as Hub by (rewrite m_buids; tauto).
    assert (u ∉ bdel (ub p1)) as Hd1. { rewrite m_pending. simpl. rewrite elem_of_difference. tauto. }
    assert (u ∈ wreg p1 <-> u ∈ wreg p0) as Hrr by (rewrite m_reg1; tauto). rewrite Hrr.
    destruct (decide (u ∈ wreg p0)) as [Hr|Hr].
    - pose proof (m_reg_p u Hr) as Hr'. pose proof (m_known u Hr' Hd) as Hk. rewrite (m_other u x Hub Hr' Hr).
      destruct (decide (u ∈ wreg w)) as [Hrw|Hrw].
      + rewrite (wi_same _ _ _ Hw u Hrw Hub x). tauto.
      + tauto.
    - assert (u ∉ wreg w) as Hrw. { intros H. apply Hr, Hkn; [by left|tauto]. }
      rewrite (m_view_p u x Hr). tauto.
  Qed.

  Local Lemma m_abs_reg u : u ∈ reg (abs q) <-> u ∈ reg (abs w).
  Proof.
    split.
    - rewrite (elem_abs_reg q r) by apply m_root1.
      change (wreg q) with (wreg p1). change (ub q) with (ub p1). change (db q) with (db p1). rewrite m_db1.
      intros [Hu|[Hnb [x Hx]]].
      + apply m_reg1 in Hu as [[Hu|Hu] Hd]; [apply m_known; [by apply m_reg_p|done]|].
        apply (elem_abs_reg w r); [apply Hw|]. left. by apply (wi_add _ _ _ Hw).
      + destruct (decide (u ∈ bdel (ub w))) as [Hd|Hd].
        * exfalso. rewrite m_pending in Hnb. simpl in Hnb. rewrite elem_of_difference in Hnb.
          assert (u ∈ badd (ub p0)) as Ha. { destruct (decide (u ∈ badd (ub p0))); [done|tauto]. }
          destruct (wi_add _ _ _ Hp u Ha) as [_ Hnv]. apply Hnv in Hx; [done|].
          intros ->. destruct (wi_del _ _ _ Hw _ Hd) as [Hn _]. by destruct (Hn (wi_rreg _ _ _ Hw)).
        * apply m_known; [|done]. apply (elem_abs_reg p0 r); [apply Hp|].
          right. split; [rewrite Hdd; apply not_elem_of_empty|eauto].
    - intros Hu. destruct (wi_typed _ _ _ Hw u Hu) as [c Hc]. apply m_abs_gr in Hc.
      apply (elem_abs q r) in Hc; [|apply m_root1]. apply (elem_abs_reg q r); [apply m_root1|].
      destruct Hc as [[? _]|(_ & ? & ?)]; [by left|right; eauto].
  Qed.

  Lemma merge_abs : abs q = abs w.
  Proof.
    apply sess_eq.
    - intros u. apply m_abs_reg.
    - intros [u x]. apply m_abs_gr.
    - unfold abs. change (wroot q) with (wroot p1). by rewrite m_root1, (wi_root _ _ _ Hw).
  Qed.

  Lemma merge_split : p1 = addj J1 q.
  Proof.
    assert (wgr q ∪ J1 = wgr p1) as H.
    { apply set_eq. intros [u x]. rewrite elem_of_union, m_wq. unfold J1. rewrite elem_of_filter. simpl.
      destruct (decide (u ∈ reg (abs w))); tauto. }
    unfold addj. rewrite H. unfold q, set_wgr. destruct p1 as [[rg g rt] cu u e x d]. done.
  Qed.

  Lemma merge_dead : dead J1 q.
  Proof.
    intros x p Hin. unfold J1 in Hin. apply elem_of_filter in Hin as [Hn Hin]. simpl in Hn.
    split; [by rewrite m_abs_reg|].
    destruct (decide (x ∈ badd (ub w) \/ x ∈ bupd (ub w))) as [Hu|Hu].
    { destruct Hn. apply (elem_abs_reg w r); [apply Hw|]. left.
      destruct Hu as [Hu|Hu]; [by apply (wi_add _ _ _ Hw)|by apply (wi_upd _ _ _ Hw)]. }
    destruct (decide (x ∈ bdel (ub w))) as [Hd|Hd].
    { assert ((x, p) ∈ triples_of (wgr p1) x) as H by (by apply elem_triples_of).
      rewrite (ap_deleted _ _ _ _ _ _ _ _ Hap x Hd) in H. apply elem_of_singleton in H. injection H as ->. eauto. }
    assert (x ∉ buids (ub w)) as Hub by (rewrite m_buids; tauto).
    apply (ap_others _ _ _ _ _ _ _ _ Hap x p Hub) in Hin.
    change (wgr (addj J p0)) with (wgr p0 ∪ J) in Hin. rewrite elem_of_union in Hin. destruct Hin as [[H|H]|H].
    - assert (x ∉ wreg p0) as Hr. { intros Hr. apply Hn, m_known; [by apply m_reg_p|done]. }
      by apply (wi_out _ _ _ Hp x p Hr) in H as (_ & _ & ?).
    - by apply HJ in H as [_ ?].
    - by destruct H as (_ & ? & _).
  Qed.

  Lemma merge_winv : winv isW q r.
  Proof.
    assert (forall u, u ∈ wreg p1 -> u ∈ reg (abs w)) as Hreg.
    { intros u Hu. apply m_abs_reg, (elem_abs_reg q r); [apply m_root1|]. by left. }
    assert (forall u, u ∈ reg (abs w) -> u ∉ bdel (ub w)) as Hnbd.
    { intros u Hu Hd. by apply m_bdel_w in Hd. }
    constructor.
    - apply m_root1.
    - change (cur p1 = USER). rewrite (proj2 (proj2 (ap_rest _ _ _ _ _ _ _ _ Hap))). apply (wi_cur _ _ _ Hp).
    - change (r ∈ wreg p1). apply m_reg1. split; [left; apply Hp|].
      intros H. apply (wi_del _ _ _ Hw) in H as [H _]. by apply H, (wi_rreg _ _ _ Hw).
    - change (db q) with (db p1). rewrite m_db1. apply Hp.
    - pose proof (wi_nz _ _ _ Hw) as [N1 N2 N3]. pose proof (wi_nz _ _ _ Hp) as [P1 P2 P3]. constructor.
      + change (0%N ∉ wreg p1). rewrite m_reg1. intros [[H|H] _]; [done|]. by apply (wi_add _ _ _ Hw) in H as [? _].
      + intros x y Hin. apply m_wq in Hin as [Hin Hx].
        destruct (decide (x ∈ badd (ub w) \/ x ∈ bupd (ub w))) as [Hu|Hu].
        { apply m_own in Hin; [|done]. by apply N2 in Hin. }
        assert (x ∉ buids (ub w)) as Hub. { rewrite m_buids. pose proof (Hnbd x Hx). tauto. }
        apply (ap_others _ _ _ _ _ _ _ _ Hap x _ Hub) in Hin.
        change (wgr (addj J p0)) with (wgr p0 ∪ J) in Hin. rewrite elem_of_union in Hin. destruct Hin as [[H|H]|H].
        * by apply P2 in H.
        * by apply HJ in H as [_ [? ?]].
        * by destruct H as (_ & [? ?] & _).
      + change (wroot p1 <> Some 0%N). rewrite m_root1, <- (wi_root _ _ _ Hp). done.
    - intros u x Hn Hin. change (u ∉ wreg p1) in Hn. change (db q) with (db p1). change (ub q) with (ub p1).
      rewrite m_db1. apply m_wq in Hin as [Hin Hx]. pose proof (Hnbd u Hx) as Hd. rewrite m_reg1 in Hn.
      assert (u ∉ wreg p0) as Hnp by tauto. assert (u ∉ badd (ub w)) as Hna by tauto.
      assert (u ∉ wreg w) as Hnw. { intros H. apply Hnp, Hkn; [by left|done]. }
      assert (u ∉ bupd (ub w)) as Hnu. { intros H. by apply (wi_upd _ _ _ Hw) in H as [? _]. }
      assert (u ∉ buids (ub w)) as Hub by (rewrite m_buids; tauto).
      assert (u ∉ bdel (ub p1)) as Hd1. { rewrite m_pending. simpl. rewrite elem_of_difference. tauto. }
      apply (ap_others _ _ _ _ _ _ _ _ Hap u x Hub) in Hin.
      change (wgr (addj J p0)) with (wgr p0 ∪ J) in Hin. rewrite elem_of_union in Hin. destruct Hin as [[H|H]|H].
      + apply (wi_out _ _ _ Hp u x Hnp) in H as (? & _ & ?). done.
      + exfalso. apply HJ in H as [H _]. apply H. destruct (wi_typed _ _ _ Hw u Hx) as [c Hc].
        apply (elem_abs w r) in Hc; [|apply Hw]. destruct Hc as [[? _]|(_ & _ & Hc)]; [done|]. by apply m_view_reg in Hc.
      + apply m_sent in H as [H ?]; [|done]. split; [|done]. by apply m_view_p.
    - intros u Hr Hb x. change (u ∈ wreg p1) in Hr. change (ub q) with (ub p1) in Hb. change (db q) with (db p1).
      rewrite m_db1. pose proof (Hreg u Hr) as Hx. pose proof (Hnbd u Hx) as Hd. rewrite m_wq.
      unfold buids in Hb. rewrite m_pending in Hb. simpl in Hb.
      rewrite !not_elem_of_union, !elem_of_difference, !elem_of_union, !elem_of_difference in Hb.
      destruct Hb as [[B1 B2] _]. apply m_reg1 in Hr as [Hr _].
      assert (u ∉ badd (ub w) /\ u ∉ badd (ub p0) /\ u ∉ bupd (ub p0)) as (Q1 & Q2 & Q3) by tauto.
      assert (u ∉ bupd (ub w)) as Q4 by tauto. assert (u ∈ wreg p0) as Hrp by tauto.
      assert (u ∉ buids (ub w)) as Hub by (rewrite m_buids; tauto).
      rewrite (m_other u x Hub (m_reg_p u Hrp) Hrp), <- (m_wreg u x Hrp).
      rewrite (wi_same _ _ _ Hp u Hrp); [tauto|]. unfold buids. rewrite !not_elem_of_union, Hdd.
      split; [done|]. apply not_elem_of_empty.
    - intros u Hu. change (u ∈ badd (ub p1)) in Hu. change (wreg q) with (wreg p1). change (db q) with (db p1).
      rewrite m_db1. rewrite m_pending in Hu. simpl in Hu. rewrite elem_of_difference, elem_of_union in Hu.
      destruct Hu as [[Hu|Hu] Hd].
      + destruct (wi_add _ _ _ Hp u Hu) as [H1 H2]. split; [|done]. apply m_reg1. tauto.
      + split; [apply m_reg1; tauto|]. intros Hur x Hx.
        assert (u ∉ wreg p0) as Hn. { intros H. by apply (m_new u Hu), m_reg_p. }
        apply (m_view_p u x Hn) in Hx. apply m_view_reg in Hx. by apply (m_new u Hu).
    - intros u Hu. change (u ∈ bupd (ub p1)) in Hu. change (wreg q) with (wreg p1). change (db q) with (db p1).
      rewrite m_db1. rewrite m_pending in Hu. simpl in Hu.
      rewrite elem_of_difference, elem_of_union, elem_of_difference in Hu. destruct Hu as [Hu Hd].
      destruct Hu as [Hu|[Hu Hna]].
      + destruct (wi_upd _ _ _ Hp u Hu) as [H1 H2]. split; [|done]. apply m_reg1. tauto.
      + destruct (m_backend u (or_introl Hu) Hna) as [H1 H2]. split; [|done]. apply m_reg1. tauto.
    - intros u Hu. change (u ∈ bdel (ub p1)) in Hu. change (wreg q) with (wreg p1). change (db q) with (db p1).
      rewrite m_db1. rewrite m_pending in Hu. simpl in Hu. rewrite elem_of_difference in Hu. destruct Hu as [Hu Hna].
      destruct (m_backend u (or_intror Hu) Hna) as [H1 H2]. split; [|done]. rewrite m_reg1. tauto.
    - intros u c Hr Hin. change (u ∈ wreg p1) in Hr. change (db q) with (db p1) in Hin. rewrite m_db1 in Hin.
      pose proof (Hreg u Hr) as Hx. pose proof (Hnbd u Hx) as Hd. apply m_wq. split; [|done].
      destruct (decide (u ∈ badd (ub w))) as [Ha|Ha].
      { exfalso. assert (u ∉ wreg p0) as Hn. { intros H. by apply (m_new u Ha), m_reg_p. }
        apply (m_view_p u _ Hn) in Hin. apply m_view_reg in Hin. by apply (m_new u Ha). }
      apply m_reg1 in Hr as [Hr _]. assert (u ∈ wreg p0) as Hrp by tauto.
      pose proof (wi_type _ _ _ Hp u c Hrp Hin) as Hg. apply (m_wreg u _ Hrp) in Hg.
      destruct (decide (u ∈ bupd (ub w))) as [Hb|Hb].
      + apply m_own; [by right|]. apply (wi_type _ _ _ Hw); [|done]. by apply (wi_upd _ _ _ Hw).
      + apply m_other; [rewrite m_buids; tauto|by apply m_reg_p|done|done].
    - intros u Hu. change (u ∈ expd p1) in Hu. change (wreg q) with (wreg p1). change (ub q) with (ub p1).
      rewrite (ap_expired _ _ _ _ _ _ _ _ Hap) in Hu. change (wreg (addj J p0)) with (wreg p0) in Hu.
      change (expd (addj J p0)) with (expd p0) in Hu. change (ub (addj J p0)) with (ub p0) in Hu.
      rewrite elem_of_difference, elem_of_intersection, elem_of_union, elem_of_difference in Hu.
      destruct Hu as [[Hu Hr] Hb]. rewrite m_buids in Hb.
      assert (u ∉ badd (ub p0) /\ u ∉ bupd (ub p0)) as [Q1 Q2].
      { destruct Hu as [Hu|[_ Hu]]; [by apply (wi_exp _ _ _ Hp) in Hu as (_ & ? & ?)|].
        unfold buids in Hu. rewrite !not_elem_of_union in Hu. tauto. }
      split; [apply m_reg1; tauto|]. rewrite m_pending. simpl.
      rewrite !elem_of_difference, !elem_of_union, !elem_of_difference. tauto.
    - intros u Hu Hv. change (u ∈ badd (ub p1)) in Hu. change (u ∈ bupd (ub p1)) in Hv.
      rewrite m_pending in Hu, Hv. simpl in Hu, Hv.
      rewrite elem_of_difference, elem_of_union in Hu, Hv. rewrite elem_of_difference in Hv.
      destruct Hu as [[Hu|Hu] _], Hv as [[Hv|[Hv Hv']] _].
      + by apply (wi_dis _ _ _ Hp u).
      + done.
      + apply (m_new u Hu), m_reg_p. by apply (wi_upd _ _ _ Hp).
      + by apply (wi_dis _ _ _ Hw u).
    - intros x y v c Hr Hin Hn Hv. change (x ∈ wreg p1) in Hr. change (v ∉ wreg p1) in Hn.
      change (db q) with (db p1) in Hv. rewrite m_db1 in Hv.
      assert ((x, TLink y v) ∈ gr (abs w)) as Hl.
      { apply m_abs_gr, (elem_abs q r); [apply m_root1|]. by left. }
      pose proof (wi_tclosed _ _ _ Hw _ _ _ Hl) as Hvr. pose proof (Hnbd v Hvr) as Hvd.
      apply m_wq. split; [|done]. apply m_wq in Hin as [Hin Hx]. rewrite m_reg1 in Hn.
      assert (v ∉ wreg p0) as Hnp by tauto. assert (v ∉ badd (ub w)) as Hna by tauto.
      assert (v ∉ wreg w) as Hnw. { intros H. apply Hnp, Hkn; [by left|done]. }
      assert (v ∉ bupd (ub w)) as Hnu. { intros H. by apply (wi_upd _ _ _ Hw) in H as [? _]. }
      assert (v ∉ buids (ub w)) as Hub by (rewrite m_buids; tauto).
      apply (ap_others _ _ _ _ _ _ _ _ Hap v _ Hub). change (wgr (addj J p0)) with (wgr p0 ∪ J).
      rewrite elem_of_union.
      destruct (decide (x ∈ badd (ub w) \/ x ∈ bupd (ub w))) as [Hu|Hu].
      + right. apply m_own in Hin; [|done]. assert (x ∈ wreg w) as Hxw.
        { destruct Hu as [Hu|Hu]; [by apply (wi_add _ _ _ Hw)|by apply (wi_upd _ _ _ Hw)]. }
        split; [|split; [eauto|exists x, y; by rewrite elem_of_union]].
        apply (wi_ntype _ _ _ Hw x y v c); [done..|]. by apply m_view_p.
      + left. left. apply m_reg1 in Hr as [Hr Hd]. assert (x ∈ wreg p0) as Hrp by tauto.
        assert (x ∉ buids (ub w)) as Hxb by (rewrite m_buids; tauto).
        apply (m_other x _ Hxb (m_reg_p x Hrp) Hrp) in Hin. apply (m_wreg x _ Hrp) in Hin.
        by apply (wi_ntype _ _ _ Hp x y v c).
    - rewrite merge_abs. apply Hw.
    - rewrite merge_abs. apply Hw.
    - rewrite merge_abs. apply Hw.
  Qed.

  Lemma merge : exists J' q', p1 = addj J' q' /\ winv isW q' r /\ dead J' q' /\ abs q' = abs w /\
    ub q' = ub p1 /\ db q' = db p0 /\ (forall u, u ∈ wreg q' <-> (u ∈ wreg p0 \/ u ∈ badd (ub w)) /\ u ∉ bdel (ub w)) /\
    (forall x y, (x, y) ∈ J' -> (exists y', (x, y') ∈ J) \/ x ∈ reg (abs p0) \/ x ∈ reg (abs w)).
  Proof.
    exists J1, q. split; [apply merge_split|]. split; [apply merge_winv|]. split; [apply merge_dead|].
    split; [apply merge_abs|]. split; [done|]. split; [apply m_db1|]. split; [apply m_reg1|].
    intros x y Hin. unfold J1 in Hin. apply elem_of_filter in Hin as [Hnr Hin]. cbn [fst] in Hnr.
    destruct (decide (x ∈ buids (ub w))) as [Hb|Hb].
    - apply m_buids in Hb as [Hb|[Hb|Hb]].
      + destruct Hnr. apply (elem_abs_reg w r); [apply Hw|]. left. by apply (wi_add _ _ _ Hw).
      + destruct Hnr. apply (elem_abs_reg w r); [apply Hw|]. left. by apply (wi_upd _ _ _ Hw).
      + right. left. apply (wi_del _ _ _ Hw) in Hb as [_ [z Hz]]. by apply m_view_reg in Hz.
    - apply (ap_others _ _ _ _ _ _ _ _ Hap x y Hb) in Hin as [Hin|Hin].
      + change (wgr (addj J p0)) with (wgr p0 ∪ J) in Hin. apply elem_of_union in Hin as [Hin|Hin]; [|left; eauto].
        right. left. apply (elem_abs_reg p0 r); [apply Hp|].
        destruct (decide (x ∈ wreg p0)) as [Hx|Hx]; [by left|right].
        apply (wi_out _ _ _ Hp x y Hx) in Hin as (Hin & Hd & _). eauto.
      + right. left. apply m_sent in Hin as [Hin _]; [|done]. by apply m_view_reg in Hin.
  Qed.
End merge.

Lemma committed_addj isW J q r :
  winv isW q r -> dead J q -> committed r (addj J q) = committed r q.
Proof.
  intros Hq HJ. unfold committed. change (db (addj J q)) with (db q). change (ub (addj J q)) with (ub q).
  f_equal. unfold commit_acts.
  assert (forall u, u ∈ wreg q -> out_triples r (wgr (addj J q)) u = out_triples r (wgr q) u) as H.
  { intros u Hu. unfold out_triples. f_equal. apply set_eq. intros [x y]. rewrite !elem_triples_of. simpl.
    change (wgr (addj J q)) with (wgr q ∪ J). rewrite elem_of_union. split; [|tauto].
    intros [[H|H] ->]; [done|]. apply HJ in H as [H _]. destruct H.
    apply (elem_abs_reg q r); [apply Hq|]. by left. }
  f_equal; [|f_equal].
  - apply map_ext_in. intros u Hu. apply elem_of_list_In, elem_of_elements in Hu. rewrite H; [done|]. by apply (wi_add _ _ _ Hq).
  - f_equal. apply map_ext_in. intros u Hu. apply elem_of_list_In, elem_of_elements in Hu. rewrite H; [done|].
    by apply (wi_upd _ _ _ Hq).
Qed.

Lemma wsess_eq (a b : wsess) :
  core a = core b -> cur a = cur b -> ub a = ub b -> eb a = eb b -> expd a = expd b -> db a = db b -> a = b.
Proof. destruct a, b; simpl. congruence. Qed.

Lemma commit_addj isW J q r :
  winv isW q r -> dead J q -> root_kept r q ->
  exists q', w_commit None (addj J q) = (addj J q', None) /\ winv isW q' r /\ dead J q' /\
    abs q' = abs q /\ ub q' = no_bufs /\ view r (db q') = gr (abs q) /\ wreg q' = wreg q /\
    expd q' = wreg q /\ eb q' = no_bufs.
Proof.
  intros Hq HJ Hk.
  destruct (w_commit_spec isW q r Hq Hk) as (q' & E & Hq' & Ha & Hc & Hu & Hd & Hv & He).
  destruct (commit_state q r) as (q1 & E1 & D1 & C1 & U1 & K1 & X1 & B1); [apply Hq|apply Hq|].
  destruct (commit_state (addj J q) r) as (p1 & F1 & D2 & C2 & U2 & K2 & X2 & B2); [apply Hq|apply Hq|].
  assert (q1 = q') as -> by congruence. exists q'.
  pose proof (wi_cur _ _ _ Hq) as Hcur.
  assert (p1 = addj J q') as ->.
  { rewrite (committed_addj isW J q r Hq HJ) in D2. apply wsess_eq.
    - rewrite C2. unfold addj, set_wgr, set_core. simpl. unfold wreg, wgr, wroot. rewrite C1. done.
    - rewrite K2. change (cur q = cur q'). by rewrite K1.
    - rewrite U2. change (no_bufs = ub q'). by rewrite U1.
    - rewrite B2 by done. change (no_bufs = eb q'). by rewrite B1.
    - rewrite X2. change (wreg q = expd q'). by rewrite X1.
    - rewrite D2. change (committed r q = db q'). by rewrite D1. }
  split; [done|]. split; [done|]. split.
  { intros x y Hin. rewrite Ha. by apply HJ. }
  split; [done|]. split; [done|]. split; [done|]. split; [unfold wreg; by rewrite C1|]. split; [done|]. by apply B1.
Qed.

Lemma view_inj r d1 d2 :
  r <> 0%N -> (forall x p, (x, p) ∈ d1 -> x <> r /\ forall q, p <> TLink q r) ->
  (forall x p, (x, p) ∈ d2 -> x <> r /\ forall q, p <> TLink q r) ->
  view r d1 = view r d2 -> d1 = d2.
Proof.
  intros Hr. assert (forall d d', (forall x p, (x, p) ∈ d -> x <> r /\ forall q, p <> TLink q r) ->
    (forall x p, (x, p) ∈ d' -> x <> r /\ forall q, p <> TLink q r) -> view r d = view r d' -> d ⊆ d') as H.
  { intros d d' H1 H2 Hv [x p] Hin. destruct (H1 _ _ Hin) as [Hx Hp].
    assert ((sub_zero r x, map_po (sub_zero r) p) ∈ view r d') as Hin'.
    { rewrite <- Hv. apply elem_view. eauto. }
    apply elem_view in Hin' as (x' & p' & Hin' & Ex & Ep). destruct (H2 _ _ Hin') as [Hx' Hp'].
    assert (forall a b, a <> r -> b <> r -> sub_zero r a = sub_zero r b -> a = b) as Hinj.
    { intros a b Ha Hb. unfold sub_zero. repeat case_decide; congruence. }
    assert (x = x') as -> by auto. assert (p = p') as ->; [|done].
    destruct p as [q v|c|a l], p' as [q' v'|c'|a' l']; simpl in Ep; try congruence.
    injection Ep as -> Ev. f_equal. apply Hinj; [intros ->; by apply (Hp q')|intros ->; by apply (Hp' q')|done]. }
  intros H1 H2 Hv. apply set_eq. intros t. split; apply H; auto.
Qed.

Section commit.
  Context (isW : cls -> bool) (dc : uid -> cls) (order : gset uid -> list uid)
    (Hperm : forall X, order X ≡ₚ elements X).

  Lemma order_empty : order ∅ = [].
  Proof. apply Permutation_nil. rewrite Hperm, elements_empty. done. Qed.

  (** New objects of the client are neither the root nor use the uid of an object
      that was deleted on the server; the types sent with deletions are not wrapper
      types. *)
  Record fresh_added (w : wsess) (r : uid) (J : graph) : Prop := {
    fa_root : r ∉ badd (ub w);
    fa_new : forall u x, u ∈ badd (ub w) -> (u, x) ∉ J }.

  Lemma r_commit_spec s r S J :
    rinv isW s r S J -> fresh_added (fst s) r J ->
    (forall u, u ∈ bdel (ub (fst s)) -> isW (dc u) = false) ->
    (r ∈ badd (ub (snd s)) -> forall x, (r, x) ∈ view r (db (snd s)) -> (r, x) ∈ gr (abs (fst s))) ->
    exists s' J', r_commit isW dc order s = (s', None) /\ rinv isW s' r (abs (fst s)) J' /\
      abs (fst s') = abs (fst s) /\ wreg (fst s') = wreg (fst s) /\
      ub (fst s') = no_bufs /\ ub (snd s') = no_bufs /\
      abs (snd s') = abs (fst s) /\ view r (db (snd s')) = gr (abs (fst s)) /\
      (forall x y, (x, y) ∈ J' -> (exists y', (x, y') ∈ J) \/ x ∈ reg S \/ x ∈ reg (abs (fst s))).
  Proof.
    destruct s as [w p]. intros [Hw (p0 & Ep & Hp & HJ & Hdd & <-) Hdb Hkn] [Hfr Hfn] Hdc Hroot. cbn [fst snd] in *. subst p.
    change (wreg (addj J p0)) with (wreg p0) in Hkn. change (ub (addj J p0)) with (ub p0) in Hroot.
    change (db (addj J p0)) with (db p0) in Hroot.
    assert (forall u, u ∈ badd (ub w) -> u ∉ reg (abs p0)) as Hnew by (by apply (m_new isW w p0 r)).
    assert (forall u, u ∈ wreg p0 -> u ∈ reg (abs p0)) as Hreg by (by apply (m_reg_p isW p0 r)).
    assert (disjoint_bufs (ub w)) as Hdis.
    { split_and!; intros u H1 H2.
      - by apply (wi_dis _ _ _ Hw u).
      - apply (wi_add _ _ _ Hw) in H1 as [H1 _]. by apply (wi_del _ _ _ Hw) in H2 as [? _].
      - apply (wi_upd _ _ _ Hw) in H1 as [H1 _]. by apply (wi_del _ _ _ Hw) in H2 as [? _]. }
    assert (can_receive isW dc w (ub w) (addj J p0) (ub p0)) as Hcan.
    { constructor.
      - change (wroot p0 <> None). by rewrite (wi_root _ _ _ Hp).
      - change (badd (ub w) ## wreg p0). intros u H1 H2. by apply (Hnew u H1), Hreg.
      - change (bupd (ub w) ∪ bdel (ub w) ⊆ wreg p0). intros u Hu. apply elem_of_union in Hu as [Hu|Hu].
        + apply Hkn; [left; by apply (wi_upd _ _ _ Hw)|]. intros H. by apply (wi_dis _ _ _ Hw u).
        + apply Hkn; [by right|]. intros H. apply (wi_add _ _ _ Hw) in H as [H _].
          by apply (wi_del _ _ _ Hw) in Hu as [? _].
      - intros u Hu. assert (u ∈ wreg w) as Hr.
        { apply elem_of_union in Hu as [Hu|Hu]; [by apply (wi_add _ _ _ Hw)|by apply (wi_upd _ _ _ Hw)]. }
        assert (forall c, (u, TType c) ∈ gr (abs w) <-> (u, TType c) ∈ wgr w) as Hc.
        { intros c. rewrite (elem_abs w r) by apply Hw. tauto. }
        split.
        + destruct (wi_typed _ _ _ Hw u) as [c Hc']; [apply (elem_abs_reg w r); [apply Hw|by left]|].
          exists c. by apply Hc.
        + intros c Hin HWc. change (wroot p0 = Some u). rewrite (wi_root _ _ _ Hp). f_equal.
          destruct (decide (u = r)) as [->|Hne]; [done|]. apply Hc in Hin.
          rewrite (wi_wrap _ _ _ Hw u c Hin Hne) in HWc. done.
      - done.
      - intros u Hu [x y] Hin. apply elem_triples_of in Hin as [Hin Heq]. simpl in Heq. subst x. exfalso.
        change (wgr (addj J p0)) with (wgr p0 ∪ J) in Hin. apply elem_of_union in Hin as [Hin|Hin]; [|by apply Hfn in Hin].
        assert (u ∉ wreg p0) as Hn. { intros H. by apply (Hnew u Hu), Hreg. }
        apply (wi_out _ _ _ Hp u y Hn) in Hin as (Hin & Hb & _). apply (Hnew u Hu).
        apply (elem_abs_reg p0 r); [apply Hp|]. right. eauto.
      - change (badd (ub p0) ∪ bupd (ub p0) ⊆ wreg p0). intros u Hu.
        apply elem_of_union in Hu as [Hu|Hu]; [by apply (wi_add _ _ _ Hp)|by apply (wi_upd _ _ _ Hp)].
      - intros u H1 H2. by apply (wi_dis _ _ _ Hp u).
      - rewrite Hdd. apply disjoint_empty_l. }
    destruct (C08_replay isW dc w USER (addj J p0) USER (order (badd (ub w))) (order (bupd (ub w))) (order (bdel (ub w))))
      as (p1 & w' & m & E1 & E2 & E3 & _ & _ & W1 & W2 & W3 & W4); [apply Hp|done|exact Hcan|apply Hperm..|].
    cbn [buf] in E3, W1. change (ub (addj J p0)) with (ub p0) in E3.
    destruct (merge isW dc w p0 p1 J r Hw Hp HJ Hdd Hdb Hkn Hfr E3) as (J1 & q & -> & Hq & Hd1 & Ha & Hub & Hdbq & Hr1 & HJ1).
    assert (root_kept r q) as Hk.
    { intros Hb x Hx. rewrite Hub in Hb. rewrite Hdbq in Hx.
      rewrite (ap_pending _ _ _ _ _ _ _ _ E3) in Hb. simpl in Hb. rewrite elem_of_difference, elem_of_union in Hb.
      assert ((r, x) ∈ gr (abs q)) as Hg. { rewrite Ha. apply Hroot; [tauto|done]. }
      apply (elem_abs q r) in Hg; [|apply Hq]. destruct Hg as [[_ ?]|[Hn _]]; [done|]. by destruct (Hn (wi_rreg _ _ _ Hq)). }
    destruct (commit_addj isW J1 q r Hq Hd1 Hk) as (q' & F1 & Hq' & Hd2 & Ha2 & U2 & V2 & R2 & X2 & B2).
    unfold r_commit. rewrite E1. cbv beta iota. unfold run_command. rewrite E2. rewrite F1.
    unfold serialize_buffers. change (eb (addj J1 q')) with (eb q'). rewrite B2.
    cbn [badd bupd bdel no_bufs]. rewrite order_empty.
    change (expd (addj J1 q')) with (expd q'). rewrite X2.
    unfold deserialize_buffers, in_engine, deserialize_body. cbn [m_add m_upd m_del m_exp app fmap list_fmap create_all foldl].
    assert (cur w' = USER) as Kw'.
    { unfold serialize_buffers in E1. injection E1 as <- _. apply (wi_cur _ _ _ Hw). }
    destruct (enter_engine_same w') as (G1 & G2 & G3 & G4 & G5).
    set (w0 := enter_engine w') in *. clearbody w0.
    set (w2 := set_db (set_cur (fst (expire w0 (wreg q))) (cur w')) (db (addj J1 q'))).
    exists (w2, addj J1 (set_eb q' no_bufs)), J1. split; [done|]. cbn [fst snd].
    assert (core w2 = core w) as C2. { change (core w0 = core w). by rewrite G1. }
    assert (ub w2 = no_bufs) as Uw2. { change (ub w0 = no_bufs). by rewrite G2. }
    destruct (w_commit_spec isW w r Hw) as (wc & _ & Hwc & Ac & Cc & Uc & _ & Vc & Xc); [by intros ?|].
    assert (db w2 = db wc) as D2.
    { apply (view_inj r); [by apply (wi_r0 isW w)|apply Hq'|apply Hwc|]. rewrite Vc. change (db w2) with (db q'). by rewrite V2, Ha. }
    assert (quiet wc w2) as Hqt.
    { split; [by rewrite C2, Cc|]. split; [by rewrite Uw2, Uc|]. split; [done|].
      split; [change (cur w' = cur wc); by rewrite Kw', (wi_cur _ _ _ Hwc)|].
      rewrite Xc. intros u Hu. apply elem_of_intersection in Hu as [_ Hu]. unfold wreg in Hu.
      rewrite G1, W2 in Hu. done. }
    assert (winv isW w2 r) as Hw2 by (by apply (winv_quiet isW wc)).
    assert (abs w2 = abs w) as Aw2. { rewrite <- Ac. apply abs_ext; apply Hqt. }
    assert (quiet q' (set_eb q' no_bufs)) as Hq3 by (repeat split; done).
    assert (abs (set_eb q' no_bufs) = abs w) as Aq3. { rewrite <- Ha, <- Ha2. by apply abs_ext. }
    assert (winv isW (set_eb q' no_bufs) r) as Hq4 by (by apply (winv_quiet isW q')).
    assert (dead J1 (set_eb q' no_bufs)) as Hd4.
    { intros x y Hin. rewrite Aq3, <- Ha. by apply Hd1. }
    split; [|split; [exact Aw2|split; [|split; [exact Uw2|split; [exact U2|split; [|split; [|exact HJ1]]]]]]].
    - constructor; cbn [fst snd].
      + exact Hw2.
      + exists (set_eb q' no_bufs). split; [done|]. split; [done|]. split; [done|]. split; [|done].
        change (bdel (ub q') = ∅). by rewrite U2.
      + rewrite D2. exact Vc.
      + intros u Hu _. change (u ∈ wreg q'). rewrite R2. apply Hr1. rewrite Uw2 in Hu. cbn [bdel no_bufs] in Hu.
        destruct Hu as [Hu|Hu]; [|by apply not_elem_of_empty in Hu]. unfold wreg in Hu. rewrite C2 in Hu.
        change (u ∈ wreg w) in Hu. split.
        * destruct (decide (u ∈ badd (ub w))); [by right|left]. apply Hkn; [by left|done].
        * intros H. by apply (wi_del _ _ _ Hw) in H as [? _].
    - unfold wreg. by rewrite C2.
    - by rewrite (abs_addj J1 (set_eb q' no_bufs) r (wi_root _ _ _ Hq4) Hd4).
    - change (view r (db q') = gr (abs w)). by rewrite V2, Ha.
  Qed.
End commit.
