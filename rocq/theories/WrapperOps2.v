(** Refinement, continued: remove, delete, create, expire, refresh. *)
From stdpp Require Import base sets list gmap countable.
From Verif Require Import Prelude Cuds CudsProofs Wrapper WrapperProofs WrapperRefine WrapperOps.

(** ** remove *)
Lemma w_remove_rels_spec isW O r a b rs w :
  winv isW w r -> a ∈ wreg w -> b ∈ wreg w ->
  exists w', w_remove_rels isW O w a b (Some b) rs = (w', None) /\
    wrote isW r w w' (set_gr (abs w) (fst (remove_rels O (gr (abs w)) a b true rs))) /\
    (forall x, x ∈ bupd (ub w') -> x ∈ bupd (ub w) \/ x = a \/ x = b).
Proof.
  revert w. induction rs as [|q rs IH]; intros w Hw Ha Hb; simpl.
  { exists w. split; [done|]. split; [|tauto].
    replace (set_gr (abs w) (gr (abs w))) with (abs w) by by destruct (abs w).
    apply quiet_wrote; [done|]. repeat split; done. }
  destruct (w_unlink_spec isW w r a q b) as (w1 & E1 & R1 & (Hw1 & Ha1 & W1) & M1); [done|done|].
  rewrite E1.
  destruct (w_unlink_spec isW w1 r b (o_inv O q) a) as (w2 & E2 & R2 & (Hw2 & Ha2 & W2) & M2);
    [done|by rewrite R1|].
  rewrite E2. rewrite Ha1 in Ha2. simpl in Ha2.
  destruct (IH w2) as (w3 & E3 & W3 & B3); [done|by rewrite R2, R1|by rewrite R2, R1|].
  rewrite E3. exists w3. split; [done|]. split.
  - eapply wrote_trans; [split; [exact Hw1|split; [exact Ha1|exact W1]]|].
    eapply wrote_trans; [split; [exact Hw2|split; [exact Ha2|exact W2]]|].
    rewrite Ha2 in W3. exact W3.
  - intros x Hx. apply B3 in Hx as [Hx|Hx]; [|tauto]. rewrite M2 in Hx.
    apply mark_upd in Hx as [Hx|Hx]; [|tauto]. rewrite M1 in Hx. apply mark_upd in Hx. tauto.
Qed.

Lemma lrel_wrote isW r w w' : winv isW w' r -> lrel w w' -> wrote isW r w w' (abs w).
Proof.
  intros Hw [L1 L2 L3 L4 L5 L6 L7]. split; [done|]. split; [done|]. split; [done|].
  rewrite L2. done.
Qed.

Lemma w_remove_all_spec isW O r missing us a m w :
  winv isW w r -> a ∈ wreg w -> a ∉ missing -> NoDup m.*1 ->
  (forall b, b ∈ m.*1 -> b ∈ reg (abs w) /\
     (b ∈ missing -> b ∉ badd (ub w) /\ b ∉ bupd (ub w)) /\ (b ∉ missing -> b ∈ wreg w)) ->
  exists w', w_remove_all isW O missing us w a m = (w', None) /\
    wrote isW r w w' (fst (remove_all O (abs w) a m)) /\ snd (remove_all O (abs w) a m) = None.
Proof.
  revert w. induction m as [|[b rs] m IH]; intros w Hw Ha Ham Hnd Hm; simpl.
  { exists w. split; [done|]. split; [|done]. apply quiet_wrote; [done|]. repeat split; done. }
  apply stdpp.list.NoDup_cons in Hnd as [Hbm Hnd].
  destruct (Hm b) as (Hbr & Hb1 & Hb2); [by left|].
  destruct (abs_reg_facts isW w r b Hw Hbr) as [Hb0 Hbd].
  destruct (load_elem_spec isW missing us b w r) as (w1 & E1 & Hw1 & Hl1 & Hin1 & _);
    [done|done|done|by intros; apply Hb1|done|].
  rewrite E1. unfold found. rewrite decide_True by done.
  rewrite bool_decide_true by done.
  destruct (w_remove_rels_spec isW O r a b (elements rs) w1)
    as (w2 & E2 & W2 & B2); [done|by apply (lr_reg _ _ Hl1)|auto|].
  rewrite E2. rewrite (lr_abs _ _ Hl1) in W2.
  destruct (remove_rels O (gr (abs w)) a b true (elements rs)) as [g1 e1] eqn:Er.
  apply remove_rels_spec in Er as Hr'. destruct Hr' as [-> _]. simpl in W2.
  destruct W2 as (Hw2 & Ha2 & R2 & D2 & BD2 & EX2 & BA2).
  destruct (IH w2) as (w3 & E3 & W3 & S3); [done| |done|done| |].
  { apply R2. by apply (lr_reg _ _ Hl1). }
  { intros x Hx. destruct (Hm x) as (H1 & H2 & H3); [by right|]. rewrite Ha2. simpl.
    split; [done|]. split.
    - intros Hxm. rewrite BA2, (lr_ub _ _ Hl1). split; [by apply H2|].
      intros Hxu. apply B2 in Hxu as [Hxu|[->| ->]]; [|done|done].
      rewrite (lr_ub _ _ Hl1) in Hxu. by apply H2 in Hxm as [_ ?].
    - intros Hxm. apply R2, (lr_reg _ _ Hl1). auto. }
  rewrite Ha2 in W3, S3. exists w3. split; [done|]. split; [|done].
  eapply wrote_trans; [exact (lrel_wrote isW r w w1 Hw1 Hl1)|].
  eapply wrote_trans; [|exact W3]. split; [done|]. split; [done|]. done.
Qed.

Lemma w_remove_spec isW O w r a uids rf oc :
  winv isW w r -> a ∈ wreg w -> sess_inv O (abs w) ->
  exists w', w_remove isW O w a uids rf oc = (w', snd (remove O (abs w) a uids rf oc)) /\
    wrote isW r w w' (fst (remove O (abs w) a uids rf oc)).
Proof.
  intros Hw Ha Hinv. unfold w_remove.
  destruct (w_get__spec isW O w r a uids rf oc Hw Ha) as (w1 & Hq & Hw1 & HX).
  pose proof (remove_spec O (abs w) a uids rf oc Hinv) as Hrm.
  destruct (remove O (abs w) a uids rf oc) as [s' e] eqn:Er. simpl.
  pose proof (quiet_wrote _ _ _ _ Hw Hq) as Hqw.
  destruct HX as [(Hu & Hoc & -> & ->)|(Hor & Hex & found & m & -> & _ & Hwf & Hin & _ & _)].
  { unfold remove in Er.
    destruct (get__spec O (abs w) a uids rf oc) as [(_ & _ & Hg)|([?|?] & _)]; [|done|done].
    rewrite Hg in Er. injection Er as <- <-. exists w. done. }
  assert (abs w1 = abs w) as Ha1 by apply Hqw.
  assert (wreg w1 = wreg w) as Hr1 by (unfold wreg; by rewrite (proj1 Hq)).
  destruct (decide (m = [])) as [->|Hm].
  { destruct Hrm as [(_ & ? & ? & _)|[(-> & _ & -> & _)|(_ & (b & q & Hm) & _)]].
    - destruct Hor; done.
    - exists w1. done.
    - exfalso. apply Hin in Hm as (rs & Hi & _). by apply elem_of_nil in Hi. }
  destruct Hrm as [(_ & ? & ? & _)|[(_ & _ & _ & Hno)|(-> & _ & Hreg & Hroot & Ht)]].
  { destruct Hor; done. }
  { exfalso. apply rm_nonempty in Hm as (b & q & Hbq); [|done]. apply Hin in Hbq. by apply Hno in Hbq. }
  rewrite (wi_root _ _ _ Hw1).
  match goal with |- context [w_remove_all ?a1 ?a2 ?a3 ?a4 ?a5 ?a6 ?a7] =>
    set (X := w_remove_all a1 a2 a3 a4 a5 a6 a7) end.
  assert (match m with [] => (w1, Some RuntimeError) | _ => X end = X) as HX by by destruct m.
  rewrite HX. subst X. clear HX.
  set (w2 := load_prelude w1 m.*1).
  assert (quiet w1 w2) as Hq2.
  { repeat split; simpl; try done. set_solver. }
  pose proof (quiet_wrote _ _ _ _ Hw1 Hq2) as Hqw2. destruct (Hqw2) as (Hw2 & Ha2 & _).
  destruct (w_remove_all_spec isW O r (list_to_set (missing_uids w1 m.*1)) m.*1 a m w2)
    as (w3 & E3 & W3 & S3).
  - done.
  - change (a ∈ wreg w1). by rewrite Hr1.
  - rewrite elem_of_list_to_set. unfold missing_uids. rewrite elem_of_list_filter, Hr1. tauto.
  - apply Hwf.
  - intros b Hb.
    assert (b ∈ (list_to_set (missing_uids w1 m.*1) : gset uid) <-> b ∉ wreg w1 \/ b ∈ expd w1) as Hmi.
    { rewrite elem_of_list_to_set. unfold missing_uids. rewrite elem_of_list_filter. tauto. }
    rewrite Hmi, Ha2, Ha1. change (wreg w2) with (wreg w1). change (ub w2) with (ub w1). split.
    { apply rm_keys_in in Hb as [q Hb]; [|done]. apply Hin in Hb.
      eapply connected_reg; [exact Hw|]. apply Hb. }
    split.
    + intros [Hn|He].
      * split; intros H; [by apply (wi_add _ _ _ Hw1) in H as [? _]|by apply (wi_upd _ _ _ Hw1) in H as [? _]].
      * by apply (wi_exp _ _ _ Hw1) in He as (_ & ? & ?).
    + intros Hn. destruct (decide (b ∈ wreg w1)); tauto.
  - rewrite E3. exists w3. split; [done|].
    rewrite Ha2, Ha1 in W3.
    destruct (remove_all O (abs w) a m) as [s'' e''] eqn:Era. simpl in W3.
    apply remove_all_spec in Era as (-> & Hreg' & Hroot' & Ht').
    2: { intros b Hb. apply rm_keys_in in Hb as [q Hb]; [|done]. apply Hin in Hb.
         eapply connected_reg; [exact Hw|]. apply Hb. }
    assert (s'' = s') as ->.
    { apply sess_eq; [by rewrite Hreg, Hreg'| |congruence].
      intros t. rewrite Ht, Ht'. by setoid_rewrite Hin. }
    eapply wrote_trans; [exact Hqw|]. eapply wrote_trans; [exact Hqw2|done].
Qed.

(** ** delete *)
Lemma w_delete_triples_spec isW w r u :
  winv isW w r -> u ∈ wreg w -> u <> r -> u ∉ expd w ->
  (forall b q, (b, TLink q u) ∉ gr (abs w)) ->
  exists w', w_delete_triples w u = (w', None) /\ winv isW w' r /\
    wreg w' = wreg w ∖ {[u]} /\ db w' = db w /\
    reg (abs w') = reg (abs w) ∖ {[u]} /\ root (abs w') = root (abs w) /\
    (forall t, t ∈ gr (abs w') <-> t ∈ gr (abs w) /\ fst t <> u).
Proof.
  intros Hw Hu Hur Hex Hnl.
  pose proof (wi_root _ _ _ Hw) as Hrt. pose proof (wi_cur _ _ _ Hw) as Hcur.
  assert (u ∈ reg (abs w)) as Hua by (apply (elem_abs_reg w r); [done|by left]).
  assert (u ∉ bdel (ub w)) as Hnd. { intros Hd. by apply (wi_del _ _ _ Hw) in Hd as [? _]. }
  unfold w_delete_triples, delete_triples. rewrite decide_True by done.
  set (s' := Sess _ _ _). set (w1 := set_core w s').
  assert (exists b', notify_delete w1 u = set_ub w1 b' /\
    (forall x, x ∈ badd b' <-> x ∈ badd (ub w) /\ x <> u) /\
    (forall x, x ∈ bupd b' <-> x ∈ bupd (ub w) /\ x <> u) /\
    (forall x, x ∈ bdel b' <-> x ∈ bdel (ub w) \/ (x = u /\ u ∉ badd (ub w)))) as (b' & -> & B1 & B2 & B3).
  { unfold notify_delete, cur_buf, set_cur_buf. change (cur w1) with (cur w). rewrite Hcur.
    change (ub w1) with (ub w).
    destruct (decide (u ∈ badd (ub w))) as [Hin|Hin]; [|destruct (decide (u ∈ bupd (ub w))) as [Hin2|Hin2]].
    - pose proof (wi_dis _ _ _ Hw u Hin) as Hnu.
      eexists. split; [done|]. simpl. split_and!; intros x;
        rewrite ?elem_of_difference, ?elem_of_singleton; [done| |].
      + split; [|tauto]. intros Hx. split; [done|]. by intros ->.
      + tauto.
    - eexists. split; [done|]. simpl. split_and!; intros x;
        rewrite ?elem_of_difference, ?elem_of_union, ?elem_of_singleton; [|done|].
      + split; [|tauto]. intros Hx. split; [done|]. by intros ->.
      + split; [|tauto]. intros [?|?]; tauto.
    - eexists. split; [done|]. simpl. split_and!; intros x;
        rewrite ?elem_of_difference, ?elem_of_union, ?elem_of_singleton.
      + split; [|tauto]. intros Hx. split; [done|]. by intros ->.
      + split; [|tauto]. intros Hx. split; [done|]. by intros ->.
      + split; [|tauto]. intros [?|?]; tauto. }
  set (w2 := set_ub w1 b'). exists w2.
  assert (forall x, x ∈ wreg w2 <-> x ∈ wreg w /\ x <> u) as R2.
  { intros x. change (x ∈ wreg w ∖ {[u]} <-> x ∈ wreg w /\ x <> u).
    by rewrite elem_of_difference, elem_of_singleton. }
  assert (forall x p, (x, p) ∈ wgr w2 <-> (x, p) ∈ wgr w /\ x <> u) as G2.
  { intros x p. change ((x, p) ∈ filter (fun t : triple => fst t <> u) (wgr w) <-> (x, p) ∈ wgr w /\ x <> u).
    rewrite elem_of_filter. simpl. tauto. }
  assert (u ∈ badd (ub w) -> forall p, (u, p) ∉ view r (db w)) as Hunk.
  { intros Hin. by apply (wi_add _ _ _ Hw). }
  assert (wroot w2 = Some r) as Hrt2 by exact Hrt.
  assert (forall x p, (x, p) ∈ gr (abs w2) <-> (x, p) ∈ gr (abs w) /\ x <> u) as GA.
  { intros x p. rewrite (elem_abs w2 r), (elem_abs w r) by done. rewrite R2, G2.
    change (ub w2) with b'. rewrite B3. change (db w2) with (db w).
    destruct (decide (x = u)) as [->|Hne]; [|tauto]. split; [|tauto].
    intros [[[_ ?] _]|(_ & Hn & Hv)]; [done|]. exfalso.
    destruct (decide (u ∈ badd (ub w))) as [Hin|Hin]; [by eapply Hunk|tauto]. }
  assert (forall x, x ∈ reg (abs w2) <-> x ∈ reg (abs w) /\ x <> u) as RA.
  { intros x. rewrite (elem_abs_reg w2 r), (elem_abs_reg w r) by done. rewrite R2.
    change (ub w2) with b'. rewrite B3. change (db w2) with (db w).
    destruct (decide (x = u)) as [->|Hne]; [|tauto]. split; [|tauto].
    intros [[_ ?]|(Hn & p & Hv)]; [done|]. exfalso.
    destruct (decide (u ∈ badd (ub w))) as [Hin|Hin]; [by eapply Hunk|tauto]. }
  split; [done|]. split.
  2: { split; [done|]. split; [done|].
       split. { apply set_eq. intros x. by rewrite RA, elem_of_difference, elem_of_singleton. }
       split; [by rewrite (abs_root w2 r), (abs_root w r)|]. intros [x p]. apply GA. }
  constructor; change (db w2) with (db w); change (ub w2) with b'; change (expd w2) with (expd w).
  - done.
  - done.
  - apply R2. split; [apply Hw|done].
  - apply Hw.
  - destruct (wi_nz _ _ _ Hw) as [N1 N2 N3]. constructor.
    + rewrite R2. tauto.
    + intros x q. rewrite G2. intros [H _]. by apply N2 in H.
    + done.
  - intros x p Hx. rewrite G2. intros [H Hne]. rewrite R2 in Hx.
    destruct (wi_out _ _ _ Hw x p) as (O1 & O2 & O3); [tauto|done|].
    split; [done|]. split; [|done]. rewrite B3. tauto.
  - intros x Hx Hb p. apply R2 in Hx as [Hx Hne]. rewrite G2.
    rewrite <- (wi_same _ _ _ Hw x Hx); [tauto|].
    revert Hb. unfold buids. rewrite !not_elem_of_union, B1, B2, B3. tauto.
  - intros x. rewrite B1, R2. intros [H Hne]. apply (wi_add _ _ _ Hw) in H. tauto.
  - intros x. rewrite B2, R2. intros [H Hne]. apply (wi_upd _ _ _ Hw) in H. tauto.
  - intros x. rewrite B3, R2. intros [H|[-> H]].
    + apply (wi_del _ _ _ Hw) in H. tauto.
    + split; [tauto|]. destruct (decide (u ∈ bupd (ub w))) as [Hb|Hb]; [by apply (wi_upd _ _ _ Hw)|].
      destruct (winv_known isW w r u) as [c Hc]; [done..|eauto].
  - intros x c. rewrite R2, G2. intros [Hx Hne] H. split; [|done]. by apply (wi_type _ _ _ Hw).
  - intros x Hx. rewrite R2, B1, B2. destruct (wi_exp _ _ _ Hw x Hx) as (? & ? & ?).
    split; [split; [done|]|tauto]. by intros ->.
  - intros x. rewrite B1, B2. intros [H _] [H' _]. by apply (wi_dis _ _ _ Hw) in H.
  - intros x q v c. rewrite R2, !G2. intros [Hx Hne] [Hl _] Hv Ht.
    assert (v <> u) as Hvu.
    { intros ->. apply (Hnl x q). apply (elem_abs w r); [done|]. by left. }
    split; [|done]. apply (wi_ntype _ _ _ Hw x q); [done|done| |done]. intros H. by apply Hv, R2.
  - intros x q v. rewrite GA, RA. intros [Hl _]. split; [by apply (wi_tclosed _ _ _ Hw x q)|].
    intros ->. by apply Hnl in Hl.
  - intros x. rewrite RA. intros [Hx Hne]. destruct (wi_typed _ _ _ Hw x Hx) as [c Hc].
    exists c. by rewrite GA.
  - intros x c. rewrite GA. intros [Hc _]. by apply (wi_wrap _ _ _ Hw).
Qed.

Lemma w_delete_spec isW O w r u :
  winv isW w r -> u ∈ wreg w -> u <> r -> involutive O -> sess_inv O (abs w) -> covered O (abs w) ->
  exists w', w_delete isW O w u = (w', None) /\ winv isW w' r /\
    snd (delete_cuds_object O (abs w) u) = None /\
    abs w' = fst (delete_cuds_object O (abs w) u) /\ db w' = db w /\ wreg w ∖ {[u]} ⊆ wreg w'.
Proof.
  intros Hw Hu Hur Hivl Hinv Hcov.
  assert (u ∈ reg (abs w)) as Hua by (apply (elem_abs_reg w r); [apply Hw|by left]).
  destruct (delete_spec O (abs w) u Hivl Hinv Hua Hcov) as (s' & Ed & Dr & Dro & Dt).
  rewrite Ed. simpl. unfold w_delete.
  destruct (w_get_spec isW O w r u [] (Some (o_relationship O)) None Hw Hu Hinv)
    as (w1 & res & -> & (l & l' & -> & Eg & Hperm) & Hw1 & Hl1 & Hex1 & _).
  destruct (get_all_spec O (abs w) u (Some (o_relationship O)) None Hinv) as (bs & Hget & _ & Hbs).
  rewrite Hget in Eg. injection Eg as <-.
  assert (Hm : forall b q, matching O (abs w) u [] (Some (o_relationship O)) None b q <->
                           connected (abs w) u q b).
  { intros b q. split; [intros H; apply H|]. intros Hc. split; [done|].
    split; [|split; done]. intros sup [= <-]. by eapply Hcov. }
  assert (u ∈ wreg w1) as Hu1 by by apply (lr_reg _ _ Hl1).
  assert (u ∉ expd w1) as Hex by (apply Hex1; by left).
  pose proof (lr_abs _ _ Hl1) as Ha1.
  destruct bs as [|b0 bs].
  - apply Permutation_nil_r in Hperm as ->.
    assert (forall b q, ~ connected (abs w) u q b) as Hno.
    { intros b q Hc. assert (b ∈ @nil uid) as Hn by (apply Hbs; exists q; by apply Hm).
      by apply elem_of_nil in Hn. }
    assert (forall b q, (b, TLink q u) ∉ gr (abs w)) as Hnl.
    { intros b q Hc. apply (proj1 Hinv b q u) in Hc. by apply Hno in Hc. }
    destruct (w_delete_triples_spec isW w1 r u) as (w2 & -> & Hw2 & R2 & D2 & RA & RO & GA);
      [done|done|done|done|by rewrite Ha1|].
    exists w2. split; [done|]. split; [done|]. split; [done|]. split.
    + apply sess_eq; [by rewrite RA, Dr, Ha1| |by rewrite RO, Dro, Ha1].
      intros t. rewrite GA, Dt, Ha1. split; [|tauto]. intros [Hin Hf]. split; [done|].
      split; [done|]. intros b q ->. by apply Hnl in Hin.
    + split; [by rewrite D2, (lr_db _ _ Hl1)|]. rewrite R2.
      pose proof (lr_reg _ _ Hl1) as Hs. clear -Hs. set_solver.
  - destruct l as [|x l].
    { by apply Permutation_nil_l in Hperm. }
    destruct (w_remove_spec isW O w1 r u [] (Some (o_relationship O)) None) as (w2 & E2 & W2);
      [done|done|by rewrite Ha1|].
    rewrite Ha1 in E2, W2.
    pose proof (remove_spec O (abs w) u [] (Some (o_relationship O)) None Hinv) as Hrm.
    destruct (remove O (abs w) u [] (Some (o_relationship O)) None) as [s1 e1].
    simpl in E2, W2.
    destruct Hrm as [(_ & ? & _)|[(_ & _ & _ & Hno)|(-> & _ & Hr & Hro & Ht)]]; [done| |].
    { exfalso. assert (b0 ∈ b0 :: bs) as Hb0 by left. apply Hbs in Hb0 as [q Hq]. by apply Hno in Hq. }
    rewrite E2. destruct W2 as (Hw2 & Ha2 & R2 & D2 & BD2 & EX2 & BA2).
    assert (forall b q, (b, TLink q u) ∉ gr s1) as Hnl.
    { intros b q Hc. apply Ht in Hc as [Hc Hn]. apply (proj1 Hinv b q u) in Hc as Hc'.
      destruct (Hn b (o_inv O q)) as [_ Hn2]; [by apply Hm|]. apply Hn2. by rewrite Hivl. }
    destruct (w_delete_triples_spec isW w2 r u) as (w3 & -> & Hw3 & R3 & D3 & RA & RO & GA);
      [done|by apply R2|done|by intros ?%EX2|by rewrite Ha2|].
    exists w3. split; [done|]. split; [done|]. split; [done|]. split.
    + apply sess_eq; [by rewrite RA, Dr, Ha2, Hr| |by rewrite RO, Dro, Ha2, Hro].
      intros t. rewrite GA, Dt, Ha2, Ht. split.
      * intros [[Hin Hn] Hf]. split; [done|]. split; [done|]. intros b q ->.
        apply (Hnl b q). apply Ht. done.
      * intros (Hin & Hf & Hl). split; [split; [done|]|done].
        intros b q _. split; [|apply Hl]. intros ->. by apply Hf.
    + split; [by rewrite D3, D2, (lr_db _ _ Hl1)|]. rewrite R3.
      pose proof (lr_reg _ _ Hl1) as Hs. clear -Hs R2. set_solver.
Qed.

(** ** create *)
Lemma w_create_spec isW order w r u c attrs :
  winv isW w r -> u <> 0%N -> u ∉ reg (abs w) -> u ∉ bdel (ub w) -> isW c = false ->
  exists w', w_create isW order w u c attrs = (w', None) /\ winv isW w' r /\
    abs w' = fst (create (abs w) u c attrs) /\ db w' = db w /\ wreg w' = wreg w ∪ {[u]} /\
    badd (ub w') = badd (ub w) ∪ {[u]}.
Proof.
  intros Hw Hu0 Hua Hud Hc.
  pose proof (wi_root _ _ _ Hw) as Hrt. pose proof (wi_cur _ _ _ Hw) as Hcur.
  assert (u ∉ wreg w /\ forall p, (u, p) ∉ view r (db w)) as [Hu Hunk].
  { split; [intros H|intros p H]; apply Hua, (elem_abs_reg w r); [done|by left|done|right; eauto]. }
  assert (u <> r) as Hur. { intros ->. apply Hu, Hw. }
  assert (forall p, (u, p) ∉ wgr w) as Hung.
  { intros p Hp. apply (wi_out _ _ _ Hw) in Hp as [Hp _]; [|done]. by apply Hunk in Hp. }
  unfold w_create. rewrite decide_False by done. unfold w_store.
  assert (forall x, (u, x) ∈ new_graph u c attrs -> x = TType c \/ exists a l, x = TAttr a l) as Hng.
  { intros x Hx. apply elem_new_graph in Hx. naive_solver. }
  assert ((u, TType c) ∈ new_graph u c attrs) as Htc.
  { apply elem_new_graph. by left. }
  assert (forall x p, (x, p) ∈ new_graph u c attrs -> x = u) as Hnu.
  { intros x p Hx. apply elem_new_graph in Hx. naive_solver. }
  assert (store_checks isW (wroot w) (new_graph u c attrs) u = None) as Hsc.
  { apply store_checks_ok; [eauto| |by rewrite Hrt]. intros _ c' Hc'.
    apply Hng in Hc' as [Hc'|(a & l & Hc')]; congruence. }
  destruct (classes (new_graph u c attrs) u) as [|c0 cs] eqn:Ecl.
  { by apply new_graph_classes in Ecl. }
  rewrite Hsc, Hrt. rewrite decide_False by done.
  unfold cur_buf, set_cur_buf. rewrite Hcur.
  match goal with |- context [set_core (set_ub w ?b) ?s] => set (w1 := set_core (set_ub w b) s) end.
  exists w1. split; [done|].
  assert (forall x, x ∈ wreg w1 <-> x ∈ wreg w \/ x = u) as R1.
  { intros x. change (x ∈ wreg w ∪ {[u]} <-> x ∈ wreg w \/ x = u).
    by rewrite elem_of_union, elem_of_singleton. }
  assert (forall t, t ∈ wgr w1 <-> t ∈ wgr w \/ t ∈ new_graph u c attrs) as G1.
  { intros t. change (t ∈ wgr w ∪ new_graph u c attrs <-> t ∈ wgr w \/ t ∈ new_graph u c attrs).
    by rewrite elem_of_union. }
  assert (bdel (ub w1) = bdel (ub w)) as B3.
  { change (bdel (ub w) ∖ {[u]} = bdel (ub w)). clear -Hud. set_solver. }
  assert (wroot w1 = Some r) as Hrt1 by done.
  assert (forall x p, (x, p) ∈ gr (abs w1) <-> (x, p) ∈ gr (abs w) \/ (x, p) ∈ new_graph u c attrs) as GA.
  { intros x p. rewrite (elem_abs w1 r), (elem_abs w r) by done. rewrite R1, G1, B3.
    change (db w1) with (db w).
    destruct (decide (x = u)) as [->|Hne].
    - pose proof (Hung p). pose proof (Hunk p). tauto.
    - assert ((x, p) ∉ new_graph u c attrs) as Hn by (intros H; by apply Hnu in H). tauto. }
  assert (forall x, x ∈ reg (abs w1) <-> x ∈ reg (abs w) \/ x = u) as RA.
  { intros x. rewrite (elem_abs_reg w1 r), (elem_abs_reg w r) by done. rewrite R1, B3.
    change (db w1) with (db w). tauto. }
  split.
  2: { split; [|done]. unfold create. rewrite decide_False by done. cbn [fst]. apply sess_eq.
       - intros x. rewrite RA. cbn [reg]. by rewrite elem_of_union, elem_of_singleton.
       - intros [x p]. rewrite GA. cbn [gr]. unfold new_graph. rewrite !elem_of_union. tauto.
       - rewrite (abs_root w1 r), (abs_root w r); done. }
  constructor; rewrite ?B3; change (db w1) with (db w); change (expd w1) with (expd w);
    change (badd (ub w1)) with (badd (ub w) ∪ {[u]}); change (bupd (ub w1)) with (bupd (ub w)).
  - done.
  - done.
  - apply R1. left. apply Hw.
  - apply Hw.
  - destruct (wi_nz _ _ _ Hw) as [N1 N2 N3]. constructor.
    + rewrite R1. intros [?|?]; [done|congruence].
    + intros x q. rewrite G1. intros [H|H]; [by apply N2 in H|].
      pose proof (Hnu _ _ H). subst x. apply Hng in H as [?|(? & ? & ?)]; done.
    + congruence.
  - intros x p Hx. rewrite G1. intros [H|H].
    + apply (wi_out _ _ _ Hw); [|done]. rewrite R1 in Hx. tauto.
    + apply Hnu in H as ->. rewrite R1 in Hx. tauto.
  - intros x Hx Hb p. assert (x <> u /\ x ∉ buids (ub w)) as [Hne Hb'].
    { revert Hb. unfold buids. rewrite !not_elem_of_union, B3.
      change (badd (ub w1)) with (badd (ub w) ∪ {[u]}). change (bupd (ub w1)) with (bupd (ub w)).
      rewrite elem_of_union, elem_of_singleton. tauto. }
    apply R1 in Hx as [Hx|Hx]; [|done]. rewrite G1, <- (wi_same _ _ _ Hw x Hx Hb' p).
    assert ((x, p) ∉ new_graph u c attrs) as Hn by (intros H; by apply Hnu in H). tauto.
  - intros x. rewrite R1, elem_of_union, elem_of_singleton. intros [Hx| ->].
    + apply (wi_add _ _ _ Hw) in Hx. tauto.
    + split; [tauto|]. done.
  - intros x Hx. rewrite R1. apply (wi_upd _ _ _ Hw) in Hx. tauto.
  - intros x Hx. rewrite R1. pose proof (wi_del _ _ _ Hw x Hx) as H. split; [|tauto].
    intros [?| ->]; tauto.
  - intros x c' Hx Hv. rewrite G1. apply R1 in Hx as [Hx| ->]; [|by apply Hunk in Hv].
    left. by apply (wi_type _ _ _ Hw).
  - intros x Hx. rewrite R1, elem_of_union, elem_of_singleton.
    destruct (wi_exp _ _ _ Hw x Hx) as (? & ? & ?). split; [tauto|]. split; [|done].
    intros [?| ->]; tauto.
  - intros x. rewrite elem_of_union, elem_of_singleton. intros [Hx| ->]; [by apply (wi_dis _ _ _ Hw)|].
    intros Hb. by apply (wi_upd _ _ _ Hw) in Hb as [? _].
  - intros x q v c' Hx Hl Hv Hvt. rewrite G1 in Hl |- *.
    destruct Hl as [Hl|Hl].
    + apply R1 in Hx as [Hx| ->]; [|by apply Hung in Hl]. left.
      apply (wi_ntype _ _ _ Hw x q); [done|done| |done]. rewrite R1 in Hv. tauto.
    + pose proof (Hnu _ _ Hl). subst x. apply Hng in Hl as [?|(? & ? & ?)]; done.
  - intros x q v. rewrite GA, RA. intros [Hl|Hl].
    + left. by apply (wi_tclosed _ _ _ Hw x q).
    + pose proof (Hnu _ _ Hl). subst x. apply Hng in Hl as [?|(? & ? & ?)]; done.
  - intros x. rewrite RA. intros [Hx| ->].
    + destruct (wi_typed _ _ _ Hw x Hx) as [c' Hc']. exists c'. rewrite GA. by left.
    + exists c. rewrite GA. by right.
  - intros x c' Hx Hne. apply GA in Hx as [Hx|Hx]; [by apply (wi_wrap _ _ _ Hw x)|].
    pose proof (Hnu _ _ Hx). subst x. apply Hng in Hx as [Hx|(? & ? & Hx)]; congruence.
Qed.

(** ** expire and refresh *)
Lemma expire_spec isW w r us :
  winv isW w r -> winv isW (fst (expire w us)) r /\ abs (fst (expire w us)) = abs w /\
    core (fst (expire w us)) = core w /\ ub (fst (expire w us)) = ub w /\
    db (fst (expire w us)) = db w.
Proof.
  intros Hw. assert (abs (fst (expire w us)) = abs w) as Ha by by apply abs_ext.
  split; [|done]. pose proof (wi_exp _ _ _ Hw) as HE.
  constructor; rewrite ?Ha; try apply Hw; [by apply (nz_ext w), Hw|].
  simpl. intros u Hu. apply elem_of_intersection in Hu as [Hu Hur].
  split; [done|]. apply elem_of_union in Hu as [Hu|Hu].
  - by apply HE in Hu as (_ & ? & ?).
  - apply elem_of_difference in Hu as [_ Hu]. revert Hu. unfold buids.
    rewrite !not_elem_of_union. tauto.
Qed.

Lemma refresh_spec isW w r us :
  winv isW w r -> exists w', refresh isW w us = (w', None) /\ winv isW w' r /\ abs w' = abs w /\
    ub w' = ub w /\ db w' = db w /\ core w' = core w.
Proof.
  intros Hw. unfold refresh. destruct us as [|u0 us].
  { exists w. done. }
  destruct (expire_spec isW w r (list_to_set (u0 :: us)) Hw) as (Hw1 & Ha1 & Hc1 & Hu1 & Hd1).
  destruct (expire w (list_to_set (u0 :: us))) as [w1 ids] eqn:E. simpl in *.
  assert (forall u, u ∈ ids -> u ∈ wreg w) as Hids.
  { unfold expire in E. injection E as _ <-. intros u Hu. by apply elem_of_intersection in Hu as [_ ?]. }
  destruct (wload_spec isW w1 r (elements ids)) as (w2 & -> & Hw2 & Hl2 & _ & _ & Hc2); [done| |].
  { intros u Hu. apply elem_of_elements, Hids in Hu. apply (abs_reg_facts isW w1 r); [done|].
    rewrite Ha1. apply (elem_abs_reg w r); [apply Hw|by left]. }
  exists w2. split; [done|]. split; [done|]. split; [by rewrite (lr_abs _ _ Hl2)|].
  split; [by rewrite (lr_ub _ _ Hl2)|]. split; [by rewrite (lr_db _ _ Hl2)|].
  rewrite Hc2; [done|]. intros u Hu. apply elem_of_elements, Hids in Hu. unfold wreg. by rewrite Hc1.
Qed.
