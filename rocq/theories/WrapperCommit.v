(** Refinement, continued: commit and connecting a new session to a backend. *)
From stdpp Require Import base sets list gmap countable.
From Verif Require Import Prelude Cuds CudsProofs Wrapper WrapperProofs WrapperRefine WrapperOps.

(** ** The phases of a commit *)
Lemma acts_add {A} (f : A -> graph) l d t :
  t ∈ foldl run_act d (map (fun u => DAdd (f u)) l) <-> t ∈ d \/ exists u, u ∈ l /\ t ∈ f u.
Proof.
  revert d. induction l as [|u l IH]; intros d; simpl.
  - split; [tauto|]. intros [?|(u & Hu & _)]; [done|by apply elem_of_nil in Hu].
  - rewrite IH, elem_of_union. split.
    + intros [[?|?]|(u' & Hu & Ht)]; [tauto| |].
      * right. exists u. split; [left|done].
      * right. exists u'. split; [by right|done].
    + intros [?|(u' & Hu & Ht)]; [tauto|]. apply elem_of_cons in Hu as [->|Hu]; [tauto|].
      right. eauto.
Qed.

Lemma acts_remove {A} (g : A -> uid) l d t :
  t ∈ foldl run_act d (map (fun u => DRemove (g u)) l) <->
  t ∈ d /\ forall u, u ∈ l -> fst t <> g u.
Proof.
  revert d. induction l as [|u l IH]; intros d; simpl.
  - split; [|tauto]. intros H. split; [done|]. intros u Hu. by apply elem_of_nil in Hu.
  - rewrite IH, elem_of_filter. split.
    + intros [[Hn Hd] Hl]. split; [done|]. intros u' Hu. apply elem_of_cons in Hu as [->|Hu]; [done|auto].
    + intros [Hd Hl]. split; [split; [|done]|].
      * apply Hl. left.
      * intros u' Hu. apply Hl. by right.
Qed.

Lemma acts_update {A} (g : A -> uid) (f : A -> graph) l d t :
  NoDup l -> (forall u u', u ∈ l -> u' ∈ l -> g u = g u' -> u = u') ->
  (forall u t, t ∈ f u -> fst t = g u) ->
  t ∈ foldl run_act d (mjoin (map (fun u => [DRemove (g u); DAdd (f u)]) l)) <->
  (t ∈ d /\ forall u, u ∈ l -> fst t <> g u) \/ exists u, u ∈ l /\ t ∈ f u.
Proof.
  intros Hnd Hinj Hf. revert d. induction l as [|u l IH]; intros d; simpl.
  - split.
    + intros H. left. split; [done|]. intros u Hu. by apply elem_of_nil in Hu.
    + intros [[H _]|(u & Hu & _)]; [done|by apply elem_of_nil in Hu].
  - apply stdpp.list.NoDup_cons in Hnd as [Hu Hnd].
    rewrite IH; [|done|].
    2: { intros x y Hx Hy. apply Hinj; by right. }
    rewrite elem_of_union, elem_of_filter. split.
    + intros [[[[Hn Hd]|Hfu] Hl]|(u' & Hu' & Ht)].
      * left. split; [done|]. intros u' Hu'. apply elem_of_cons in Hu' as [->|Hu']; [done|auto].
      * right. exists u. split; [left|done].
      * right. exists u'. split; [by right|done].
    + intros [[Hd Hl]|(u' & Hu' & Ht)].
      * left. split; [left; split; [apply Hl; left|done]|]. intros u' Hu'. apply Hl. by right.
      * apply elem_of_cons in Hu' as [->|Hu'].
        -- left. split; [by right|]. intros u' Hu' Heq. rewrite (Hf u t Ht) in Heq.
           apply Hinj in Heq; [|by left|by right]. by subst.
        -- right. eauto.
Qed.

(** ** Reading and writing the root as the zero uid *)
Definition po_nz (p : po) : Prop := forall q, p <> TLink q 0%N.

Lemma sub_root_zero r x : r <> 0%N -> x <> r -> sub_root r (sub_zero r x) = x.
Proof. unfold sub_root, sub_zero. intros. repeat case_decide; congruence. Qed.
Lemma sub_root_inj r x y : x <> 0%N -> y <> 0%N -> sub_root r x = sub_root r y -> x = y.
Proof. unfold sub_root. intros. repeat case_decide; congruence. Qed.
Lemma sub_root_ne r x : r <> 0%N -> sub_root r x <> r.
Proof. unfold sub_root. intros. case_decide; congruence. Qed.

Lemma map_po_root_zero r p :
  r <> 0%N -> (forall q, p <> TLink q r) -> map_po (sub_root r) (map_po (sub_zero r) p) = p.
Proof.
  intros Hr Hp. destruct p as [q v| |]; simpl; [|done|done]. f_equal.
  apply sub_root_zero; [done|]. intros ->. by apply (Hp q).
Qed.
Lemma map_po_zero_root r p :
  r <> 0%N -> po_nz p -> map_po (sub_zero r) (map_po (sub_root r) p) = p.
Proof.
  intros Hr Hp. destruct p as [q v| |]; simpl; [|done|done]. f_equal.
  apply sub_zero_root; [done|]. intros ->. by apply (Hp q).
Qed.
Lemma map_po_root_inj r p p' :
  r <> 0%N -> po_nz p -> po_nz p' -> map_po (sub_root r) p = map_po (sub_root r) p' -> p = p'.
Proof.
  intros Hr Hp Hp' Heq. rewrite <- (map_po_zero_root r p), <- (map_po_zero_root r p') by done.
  by rewrite Heq.
Qed.
Lemma map_po_zero_nz r p : r <> 0%N -> po_nz (map_po (sub_zero r) p).
Proof.
  intros Hr q Heq. destruct p as [q' v| |]; simplify_eq/=. by apply (sub_zero_nz r v).
Qed.

Definition no_uid (r : uid) (d : graph) : Prop :=
  forall x p, (x, p) ∈ d -> x <> r /\ forall q, p <> TLink q r.

Lemma elem_view_inv r d x p :
  r <> 0%N -> no_uid r d ->
  (x, p) ∈ view r d <->
  x <> 0%N /\ po_nz p /\ (sub_root r x, map_po (sub_root r) p) ∈ d.
Proof.
  intros Hr Hd. rewrite elem_view. split.
  - intros (x' & p' & Hin & -> & ->). destruct (Hd _ _ Hin) as [H1 H2].
    split; [by apply sub_zero_nz|]. split; [by apply map_po_zero_nz|].
    by rewrite sub_root_zero, map_po_root_zero.
  - intros (Hx & Hp & Hin). exists (sub_root r x), (map_po (sub_root r) p).
    split; [done|]. by rewrite sub_zero_root, map_po_zero_root.
Qed.

Lemma elem_out_triples r g u x p :
  r <> 0%N -> u <> 0%N -> x <> 0%N -> po_nz p -> (forall y q, (y, TLink q 0%N) ∉ g) ->
  (sub_root r x, map_po (sub_root r) p) ∈ out_triples r g u <-> (x, p) ∈ g /\ x = u.
Proof.
  intros Hr Hu Hx Hp Hg. unfold out_triples. rewrite elem_map_graph. split.
  - intros ([y p'] & Hin & Heq). apply elem_triples_of in Hin as [Hin Hy]. simpl in Hy. subst y.
    unfold map_triple in Heq. simpl in Heq. injection Heq as E1 E2.
    apply sub_root_inj in E1; [|done|done]. subst x.
    apply map_po_root_inj in E2; [|done|done|]; [by subst|].
    intros q ->. by apply Hg in Hin.
  - intros [Hin ->]. exists (u, p). split; [|done]. apply elem_triples_of. done.
Qed.

(** ** The effect of a commit on the backend *)
Definition committed (r : uid) (w : wsess) : graph :=
  foldl run_act (db w) (commit_acts r (wgr w) (ub w)).

Record commit_ok (r : uid) (w : wsess) : Prop := {
  co_r0 : r <> 0%N;
  co_nz : forall x q, (x, TLink q 0%N) ∉ wgr w;
  co_db : no_uid r (db w);
  co_buf0 : 0%N ∉ buids (ub w) }.

(** Whatever the session and the backend contain. *)
Lemma elem_committed_gen w r x p :
  commit_ok r w ->
  (x, p) ∈ view r (committed r w) <->
  x ∉ bdel (ub w) /\
  ((x ∈ bupd (ub w) /\ (x, p) ∈ wgr w) \/
   (x ∉ bupd (ub w) /\ ((x, p) ∈ view r (db w) \/ (x ∈ badd (ub w) /\ (x, p) ∈ wgr w)))).
Proof.
  intros [Hr0 N2 Hdno Hb0].
  assert (forall u, u ∈ badd (ub w) -> u <> 0%N) as Ha0.
  { intros u Hu ->. apply Hb0. unfold buids. set_solver. }
  assert (forall u, u ∈ bupd (ub w) -> u <> 0%N) as Hu0.
  { intros u Hu ->. apply Hb0. unfold buids. set_solver. }
  assert (forall u, u ∈ bdel (ub w) -> u <> 0%N) as Hd0.
  { intros u Hu ->. apply Hb0. unfold buids. set_solver. }
  assert (forall u t, t ∈ out_triples r (wgr w) u -> fst t = sub_root r u) as Hof.
  { intros u t Ht. unfold out_triples in Ht. apply elem_map_graph in Ht as ([y p'] & Hin & ->).
    apply elem_triples_of in Hin as [_ Hy]. simpl in *. by subst. }
  assert (forall t, t ∈ committed r w <->
    ((t ∈ db w \/ (exists u, u ∈ badd (ub w) /\ t ∈ out_triples r (wgr w) u)) /\
       (forall u, u ∈ bupd (ub w) -> fst t <> sub_root r u) \/
     (exists u, u ∈ bupd (ub w) /\ t ∈ out_triples r (wgr w) u)) /\
    forall u, u ∈ bdel (ub w) -> fst t <> sub_root r u) as Hcom.
  { intros t. unfold committed, commit_acts. rewrite !foldl_app, acts_remove, acts_update, acts_add.
    - setoid_rewrite elem_of_elements. done.
    - apply NoDup_elements.
    - intros u u' H1 H2. rewrite elem_of_elements in H1, H2. by apply sub_root_inj; auto.
    - done. }
  assert (no_uid r (committed r w)) as Hno.
  { assert (forall u y p', (y, p') ∈ out_triples r (wgr w) u -> y <> r /\ forall q, p' <> TLink q r) as Hout.
    { intros u y p' Hin. unfold out_triples in Hin. apply elem_map_graph in Hin as ([y' p''] & Hin & Heq).
      unfold map_triple in Heq. simpl in Heq. injection Heq as -> ->.
      split; [by apply sub_root_ne|]. intros q Hq. destruct p''; simplify_eq/=.
      match goal with H : sub_root _ _ = _ |- _ => by apply sub_root_ne in H end. }
    intros y p' Hin. apply Hcom in Hin as [[[[Hin|(u & _ & Hin)] _]|(u & _ & Hin)] _].
    - by apply Hdno in Hin.
    - by apply Hout in Hin.
    - by apply Hout in Hin. }
  rewrite (elem_view_inv r (committed r w)) by done. rewrite Hcom. simpl.
  destruct (decide (x = 0%N)) as [->|Hx].
  { split; [tauto|]. intros (_ & [[Hu _]|(_ & [H|[Ha _]])]); exfalso.
    - by apply Hu0 in Hu.
    - apply (elem_view_inv r (db w)) in H as [? _]; done.
    - by apply Ha0 in Ha. }
  assert (po_nz p \/ ~ po_nz p) as [Hp|Hp].
  { destruct p as [q v| |]; [|left; intros ?; done|left; intros ?; done].
    destruct (decide (v = 0%N)) as [->|Hv]; [right|left].
    - intros H. by apply (H q).
    - intros q' Heq. by simplify_eq. }
  2: { assert ((x, p) ∈ wgr w -> po_nz p) as Hg. { intros H q ->. by apply N2 in H. }
       split; [tauto|]. intros (_ & [[_ H]|(_ & [H|[_ H]])]); exfalso; apply Hp.
       - auto.
       - by apply (elem_view_inv r (db w)) in H as (_ & ? & _); [|done|done].
       - auto. }
  assert (forall u, u <> 0%N -> (sub_root r x, map_po (sub_root r) p) ∈ out_triples r (wgr w) u <->
            (x, p) ∈ wgr w /\ x = u) as Ho.
  { intros u Hu. by apply elem_out_triples. }
  assert ((sub_root r x, map_po (sub_root r) p) ∈ db w <-> (x, p) ∈ view r (db w)) as Hdb.
  { rewrite (elem_view_inv r (db w)); [tauto|done|done]. }
  assert ((exists u, u ∈ badd (ub w) /\ (sub_root r x, map_po (sub_root r) p) ∈ out_triples r (wgr w) u) <->
          x ∈ badd (ub w) /\ (x, p) ∈ wgr w) as HA.
  { split.
    - intros (u & Hu & Hin). apply Ho in Hin as [Hin ->]; [done|auto].
    - intros [Hu Hin]. exists x. split; [done|]. by apply Ho. }
  assert ((exists u, u ∈ bupd (ub w) /\ (sub_root r x, map_po (sub_root r) p) ∈ out_triples r (wgr w) u) <->
          x ∈ bupd (ub w) /\ (x, p) ∈ wgr w) as HU.
  { split.
    - intros (u & Hu & Hin). apply Ho in Hin as [Hin ->]; [done|auto].
    - intros [Hu Hin]. exists x. split; [done|]. by apply Ho. }
  assert ((forall u, u ∈ bupd (ub w) -> sub_root r x <> sub_root r u) <-> x ∉ bupd (ub w)) as HNU.
  { split; [intros H Hin; by apply (H x)|]. intros H u Hu Heq. apply sub_root_inj in Heq; [|done|auto].
    by subst. }
  assert ((forall u, u ∈ bdel (ub w) -> sub_root r x <> sub_root r u) <-> x ∉ bdel (ub w)) as HND.
  { split; [intros H Hin; by apply (H x)|]. intros H u Hu Heq. apply sub_root_inj in Heq; [|done|auto].
    by subst. }
  rewrite HA, HU, HNU, HND, Hdb. tauto.
Qed.

Lemma winv_commit_ok isW w r : winv isW w r -> commit_ok r w.
Proof.
  intros Hw. pose proof (wi_r0 _ _ _ Hw) as Hr0. pose proof (wi_nz _ _ _ Hw) as [N1 N2 N3].
  constructor; [done|done|exact (wi_db _ _ _ Hw)|]. unfold buids. rewrite !not_elem_of_union. split_and!; intros Hu.
  - by apply (wi_add _ _ _ Hw) in Hu as [? _].
  - by apply (wi_upd _ _ _ Hw) in Hu as [? _].
  - apply (wi_del _ _ _ Hw) in Hu as (_ & p' & Hp).
    apply elem_view in Hp as (y & ? & _ & Heq & _). symmetry in Heq. by apply sub_zero_nz in Heq.
Qed.

Lemma elem_committed isW w r x p :
  winv isW w r ->
  (x, p) ∈ view r (committed r w) <->
  (x, p) ∈ gr (abs w) \/ (x = r /\ r ∈ badd (ub w) /\ (x, p) ∈ view r (db w)).
Proof.
  intros Hw. pose proof (wi_root _ _ _ Hw) as Hrt.
  rewrite (elem_committed_gen w r x p) by by eapply winv_commit_ok.
  rewrite (elem_abs w r) by done.
  destruct (decide (x ∈ bdel (ub w))) as [Hbd|Hbd].
  { pose proof (wi_del _ _ _ Hw x Hbd) as [Hnr _]. split; [tauto|].
    intros [[[? _]|(_ & ? & _)]|(-> & _ & _)]; [done|done|]. exfalso. apply Hnr, Hw. }
  destruct (decide (x ∈ bupd (ub w))) as [Hbu|Hbu].
  { pose proof (wi_upd _ _ _ Hw x Hbu) as [Hxr _]. split; [tauto|].
    intros [[[? ?]|(? & _)]|(-> & Hb & _)]; [tauto|done|]. by apply (wi_dis _ _ _ Hw) in Hb. }
  destruct (decide (x ∈ badd (ub w))) as [Hba|Hba].
  { pose proof (wi_add _ _ _ Hw x Hba) as [Hxr Hunk]. destruct (decide (x = r)) as [->|Hne]; [tauto|].
    specialize (Hunk Hne p). tauto. }
  destruct (decide (x ∈ wreg w)) as [Hxr|Hxr].
  - rewrite <- (wi_same _ _ _ Hw x Hxr) by (unfold buids; set_solver).
    split; [tauto|]. intros [[?|?]|(-> & ? & _)]; tauto.
  - split; [tauto|]. intros [[?|?]|(-> & ? & _)]; [tauto|tauto|]. done.
Qed.

(** The root's stored triples are still those of the session's root if the root
    has not been stored by this session yet. *)
Definition root_kept (r : uid) (w : wsess) : Prop :=
  r ∈ badd (ub w) -> forall p, (r, p) ∈ view r (db w) -> (r, p) ∈ wgr w.

Lemma view_committed isW w r :
  winv isW w r -> root_kept r w -> view r (committed r w) = gr (abs w).
Proof.
  intros Hw Hk. apply set_eq. intros [x p]. rewrite (elem_committed isW) by done.
  split; [|tauto]. intros [H|(-> & Hb & H)]; [done|]. apply (elem_abs w r); [apply Hw|].
  left. split; [apply Hw|]. by apply Hk.
Qed.

Lemma committed_no_uid isW w r : winv isW w r -> no_uid r (committed r w).
Proof.
  intros Hw. pose proof (wi_r0 _ _ _ Hw) as Hr0. unfold committed.
  assert (forall acts d, no_uid r d ->
    (forall a, a ∈ acts -> match a with DAdd ts => no_uid r ts | DRemove _ => True end) ->
    no_uid r (foldl run_act d acts)) as Hgen.
  { induction acts as [|a acts IH]; intros d Hd Ha; [done|]. simpl. apply IH.
    - pose proof (Ha a ltac:(left)) as H. intros x p Hin. destruct a as [ts|u]; simpl in Hin.
      + apply elem_of_union in Hin as [?|?]; eauto.
      + apply elem_of_filter in Hin as [_ ?]; eauto.
    - intros a' Ha'. apply Ha. by right. }
  apply Hgen; [exact (wi_db _ _ _ Hw)|].
  assert (forall u, no_uid r (out_triples r (wgr w) u)) as Hout.
  { intros u y p' Hin. unfold out_triples in Hin. apply elem_map_graph in Hin as ([y' p''] & Hin & Heq).
    unfold map_triple in Heq. simpl in Heq. injection Heq as -> ->.
    split; [by apply sub_root_ne|]. intros q Hq. destruct p''; simplify_eq/=.
    match goal with H : sub_root _ _ = _ |- _ => by apply sub_root_ne in H end. }
  intros a Ha. unfold commit_acts in Ha. rewrite !elem_of_app in Ha. destruct Ha as [Ha|[Ha|Ha]].
  - apply elem_of_list_In, in_map_iff in Ha as (u & <- & _). apply Hout.
  - apply elem_of_list_join in Ha as (l & Ha & Hl).
    apply elem_of_list_In, in_map_iff in Hl as (u & <- & _).
    apply elem_of_cons in Ha as [->|Ha]; [done|]. apply elem_of_list_singleton in Ha as ->. apply Hout.
  - apply elem_of_list_In, in_map_iff in Ha as (u & <- & _). done.
Qed.

Lemma w_commit_spec isW w r :
  winv isW w r -> root_kept r w ->
  exists w', w_commit None w = (w', None) /\ winv isW w' r /\ abs w' = abs w /\
    core w' = core w /\ ub w' = no_bufs /\ db w' = committed r w /\ view r (db w') = gr (abs w) /\
    expd w' = wreg w.
Proof.
  intros Hw Hk. pose proof (wi_root _ _ _ Hw) as Hrt. pose proof (wi_cur _ _ _ Hw) as Hcur.
  pose proof (view_committed _ _ _ Hw Hk) as Hv.
  unfold w_commit, in_engine.
  destruct (enter_engine_same w) as (H1 & H2 & H3 & H4 & H5).
  set (w0 := enter_engine w) in *. clearbody w0.
  assert (wroot w0 = Some r) as -> by (unfold wroot; by rewrite H1).
  assert (wreg w0 = wreg w) as Hr0 by (unfold wreg; by rewrite H1).
  rewrite Hr0, decide_True by apply Hw.
  assert (wgr w0 = wgr w) as -> by (unfold wgr; by rewrite H1).
  rewrite H2, H4. change (foldl run_act (db w) (commit_acts r (wgr w) (ub w))) with (committed r w).
  match goal with |- exists w', (?X, None) = _ /\ _ => set (w1 := X) end.
  assert (core w1 = core w) as C1 by (subst w1; simpl; done).
  assert (ub w1 = no_bufs) as U1 by done. assert (db w1 = committed r w) as D1 by done.
  assert (cur w1 = USER) as K1 by done.
  assert (expd w1 = wreg w) as E1.
  { change ((expd w0 ∪ wreg w0 ∖ buids no_bufs) ∩ wreg w0 = wreg w).
    rewrite Hr0. unfold buids. simpl. clear. set_solver. }
  clearbody w1. exists w1. split; [done|].
  assert (wroot w1 = Some r) as Hrt1 by (unfold wroot; by rewrite C1).
  assert (wreg w1 = wreg w) as R1 by (unfold wreg; by rewrite C1).
  assert (wgr w1 = wgr w) as G1 by (unfold wgr; by rewrite C1).
  assert (forall x p, x ∈ wreg w -> (x, p) ∈ gr (abs w) <-> (x, p) ∈ wgr w) as Hin.
  { intros x p Hx. rewrite (elem_abs w r) by done. tauto. }
  assert (abs w1 = abs w) as Ha.
  { apply sess_eq.
    - intros x. rewrite (elem_abs_reg w1 r) by done. rewrite R1, U1, D1, Hv. simpl. split.
      + intros [Hx|(_ & p & Hp)]; [apply (elem_abs_reg w r); [done|by left]|].
        apply (elem_abs w r) in Hp; [|done]. apply (elem_abs_reg w r); [done|]. naive_solver.
      + intros Hx. right. split; [apply not_elem_of_empty|].
        destruct (wi_typed _ _ _ Hw x Hx) as [c Hc]. eauto.
    - intros [x p]. rewrite (elem_abs w1 r) by done. rewrite R1, U1, D1, G1, Hv. simpl.
      destruct (decide (x ∈ wreg w)) as [Hx|Hx].
      + split; [intros [[_ H]|(H & _)]; [by apply Hin|done]|]. intros H. left. split; [done|]. by apply Hin.
      + split; [tauto|]. intros H. right. split; [done|]. split; [apply not_elem_of_empty|done].
    - by rewrite (abs_root w1 r), (abs_root w r). }
  split.
  2: { rewrite D1. done. }
  constructor; rewrite ?Ha, ?R1, ?G1, ?D1, ?U1, ?Hv, ?E1.
  - done.
  - done.
  - apply Hw.
  - by eapply committed_no_uid.
  - by apply (nz_ext w), Hw.
  - intros u p Hu Hp. destruct (wi_out _ _ _ Hw u p Hu Hp) as (O1 & O2 & O3).
    split; [|split; [apply not_elem_of_empty|done]]. apply (elem_abs w r); [done|]. by right.
  - intros u Hu _ p. symmetry. by apply Hin.
  - intros u Hu. by apply not_elem_of_empty in Hu.
  - intros u Hu. by apply not_elem_of_empty in Hu.
  - intros u Hu. by apply not_elem_of_empty in Hu.
  - intros u c Hu. by apply Hin.
  - intros u Hu. split; [done|]. split; apply not_elem_of_empty.
  - intros u Hu. by apply not_elem_of_empty in Hu.
  - intros x q v c Hx Hl Hnv Ht. apply (wi_ntype _ _ _ Hw x q); [done|done|done|].
    apply (elem_abs w r) in Ht as [[? _]|(_ & _ & ?)]; done.
  - apply Hw.
  - apply Hw.
  - apply Hw.
Qed.

(** ** Connecting *)

(** A backend that a session can connect to: objects and the objects they link to
    are typed and only the root (the zero uid) is a wrapper. *)
Record good_db (isW : cls -> bool) (d : graph) : Prop := {
  gd_typed : forall u p, (u, p) ∈ d -> exists c, (u, TType c) ∈ d;
  gd_closed : forall u q v, (u, TLink q v) ∈ d -> exists p, (v, p) ∈ d;
  gd_wrap : forall u c, (u, TType c) ∈ d -> u <> 0%N -> isW c = false }.

Section connect.
  Context (isW : cls -> bool) (d : graph) (r : uid) (c : cls) (attrs : list (attr * lit)).
  Context (Hr : r <> 0%N) (Hd : no_uid r d) (Hg : good_db isW d) (HW : isW c = true).
  Let V := view r d.
  Let NG := new_graph r c attrs.

  Lemma V_typed u p : (u, p) ∈ V -> exists c, (u, TType c) ∈ V.
  Proof.
    intros Hp. apply elem_view in Hp as (x & p' & Hin & -> & ->).
    destruct (gd_typed _ _ Hg _ _ Hin) as [c' Hc']. exists c'. apply elem_view.
    exists x, (TType c'). done.
  Qed.
  Lemma V_closed u q v : (u, TLink q v) ∈ V -> exists p, (v, p) ∈ V.
  Proof.
    intros Hp. apply elem_view in Hp as (x & p' & Hin & -> & Heq).
    destruct p' as [q' v'| |]; simplify_eq/=.
    destruct (gd_closed _ _ Hg _ _ _ Hin) as [p Hp]. exists (map_po (sub_zero r) p).
    apply elem_view. eauto.
  Qed.
  Lemma V_wrap u c' : (u, TType c') ∈ V -> u <> r -> isW c' = false.
  Proof.
    intros Hp Hne. apply elem_view in Hp as (x & p' & Hin & -> & Heq).
    destruct p' as [|c''|]; simplify_eq/=. apply (gd_wrap _ _ Hg x); [done|].
    intros ->. apply Hne. unfold sub_zero. by rewrite decide_True.
  Qed.
  Lemma NG_only u p : (u, p) ∈ NG -> u = r /\ (p = TType c \/ exists a l, p = TAttr a l).
  Proof. intros H. apply elem_new_graph in H. naive_solver. Qed.
  Lemma NG_type : (r, TType c) ∈ NG.
  Proof. apply elem_new_graph. by left. Qed.

  (** After the uids P have been processed; N is what was known of the root before. *)
  Record loading (N : graph) (P : gset uid) (w : wsess) : Prop := {
    lo_root : wroot w = Some r;
    lo_cur : cur w = ENGINE;
    lo_ub : ub w = Bufs {[r]} ∅ ∅;
    lo_db : db w = d;
    lo_eb : bdel (eb w) = ∅;
    lo_expd : expd w = ∅;
    lo_reg : forall u, u ∈ wreg w <-> u = r \/ (u ∈ P /\ exists p, (u, p) ∈ V);
    lo_gr : forall x p, x <> r -> (x, p) ∈ wgr w <->
              (x, p) ∈ V /\ (x ∈ P \/ ((exists c, p = TType c) /\ exists u q, u ∈ P /\ (u, TLink q x) ∈ V));
    lo_rgr1 : forall p, r ∈ P -> (exists p', (r, p') ∈ V) -> (r, p) ∈ wgr w <-> (r, p) ∈ V;
    lo_rgr2 : forall p, (forall p', (r, p') ∉ V) -> (r, p) ∈ wgr w <-> (r, p) ∈ N;
    lo_rgr3 : forall q v, (r, TLink q v) ∈ wgr w -> (r, TLink q v) ∈ V
  }.

  Lemma loading_step N P u w :
    loading N P w -> u <> 0%N ->
    exists w' o, load_iri isW w u = (w', Ok o) /\ loading N ({[u]} ∪ P) w'.
  Proof.
    intros [L1 L2 L3 L4 L5 L6 L7 L8 L9 L10 L11] Hu.
    destruct (decide (triples_of V u = ∅)) as [Hk|Hk]; cycle 1.
    - apply set_choose_L in Hk as [[x p0] Hk]. apply elem_triples_of in Hk as [Hk Hx]. simpl in Hx. subst x.
      destruct (V_typed u p0 Hk) as [c0 Hc0].
      destruct (load_iri_known isW w r u) as (w1 & E1 & A1 & A2 & A3 & A4 & A5 & A6 & A7 & A8);
        [done|done|done|done|done|by rewrite L4|rewrite L4; eauto| |].
      { rewrite L4. intros Hne c' [Hc'|Hc']; [|by apply (V_wrap u)].
        apply L8 in Hc' as [Hc' _]; [|done]. by apply (V_wrap u). }
      rewrite L4 in A8. fold V in A8. exists w1, (Some u). split; [done|]. constructor.
      + done.
      + done.
      + congruence.
      + congruence.
      + done.
      + rewrite A3, L6. clear. set_solver.
      + intros x. rewrite A1, !elem_of_union, !elem_of_singleton, L7. split.
        * intros [[?|[? ?]]| ->]; [tauto|tauto|]. right. split; [tauto|eauto].
        * intros [?|[[?|?] ?]]; tauto.
      + intros x p Hne. rewrite A8, (L8 x p Hne), elem_of_union, elem_of_singleton. split.
        * intros [[[Hv [Hx|(Ht & y & q & Hy & Hq)]] _]|[[Hv ->]|(Hv & Ht & q & Hq)]].
          -- tauto.
          -- split; [done|]. right. split; [done|]. exists y, q. split; [clear -Hy; set_solver|done].
          -- tauto.
          -- split; [done|]. right. split; [done|]. exists u, q. split; [clear; set_solver|done].
        * intros [Hv [[->|Hx]|(Ht & y & q & Hy & Hq)]].
          -- tauto.
          -- destruct (decide (x = u)) as [->|Hxu]; tauto.
          -- apply elem_of_union in Hy as [Hy|Hy].
             ++ apply elem_of_singleton in Hy as ->. right. right. split; [done|]. eauto.
             ++ destruct (decide (x = u)) as [->|Hxu]; [tauto|]. left.
                split; [|tauto]. split; [done|]. right. eauto.
      + intros p HrP Hkr. rewrite A8. split.
        * intros [[H Hor]|[[? _]|[? _]]]; [|done|done].
          destruct (decide (r ∈ P)) as [HrP'|HrP']; [by apply L9|].
          assert (u = r) as -> by (clear -HrP HrP'; set_solver). exfalso.
          destruct Hor as [?|Hor]; [done|]. apply Hor, L7. by left.
        * intros H. destruct (decide (u = r)) as [->|Hne]; [tauto|]. left.
          split; [|left; congruence]. apply L9; [clear -HrP Hne; set_solver|done|done].
      + intros p Hnk. rewrite A8. assert (u <> r) as Hne. { intros ->. by apply Hnk in Hk. }
        rewrite (L10 p Hnk). split; [|intros H; left; split; [done|left; congruence]].
        intros [[? _]|[[H _]|[H _]]]; [done|by apply Hnk in H|by apply Hnk in H].
      + intros q v. rewrite A8. intros [[H _]|[[H _]|[H _]]]; [by apply L11|done|done].
    - assert (forall p, (u, p) ∉ V) as Hnk.
      { intros p Hp. assert ((u, p) ∈ triples_of V u) as H by by apply elem_triples_of.
        rewrite Hk in H. by apply elem_of_empty in H. }
      rewrite (load_iri_unknown isW w r u); [|done|done|done|by rewrite L4|by rewrite L4].
      exists w, None. split; [done|]. constructor; try done.
      + intros x. rewrite L7, elem_of_union, elem_of_singleton. split; [tauto|].
        intros [?|[[->|?] [p Hp]]]; [tauto| |eauto]. by apply Hnk in Hp.
      + intros x p Hne. rewrite (L8 x p Hne), elem_of_union, elem_of_singleton. split.
        * intros [Hv [Hx|(Ht & y & q & Hy & Hq)]]; [tauto|]. split; [done|]. right.
          split; [done|]. exists y, q. split; [clear -Hy; set_solver|done].
        * intros [Hv [[->|Hx]|(Ht & y & q & Hy & Hq)]]; [by apply Hnk in Hv|tauto|].
          split; [done|]. right. split; [done|]. exists y, q. split; [|done].
          apply elem_of_union in Hy as [Hy|Hy]; [|done]. apply elem_of_singleton in Hy as ->.
          by apply Hnk in Hq.
      + intros p HrP Hkr. apply L9; [|done]. apply elem_of_union in HrP as [HrP|HrP]; [|done].
        apply elem_of_singleton in HrP as ->. destruct Hkr as [p' Hp']. by apply Hnk in Hp'.
  Qed.

  Lemma loading_all N us P w :
    loading N P w -> (forall u, u ∈ us -> u <> 0%N) ->
    exists w', load_iris isW us w = (w', None) /\ loading N (list_to_set us ∪ P) w'.
  Proof.
    revert P w. induction us as [|u us IH]; intros P w Hl Hus; simpl.
    { exists w. split; [done|]. by rewrite union_empty_l_L. }
    destruct (loading_step N P u w Hl) as (w1 & o & -> & Hl1); [apply Hus; left|].
    destruct (IH _ _ Hl1) as (w2 & -> & Hl2); [intros x Hx; apply Hus; by right|].
    exists w2. split; [done|]. replace ({[u]} ∪ list_to_set us ∪ P) with (list_to_set us ∪ ({[u]} ∪ P)); [done|].
    clear. set_solver.
  Qed.

  (** The session's content after connecting. *)
  Definition connected_graph : graph :=
    if decide (triples_of V r = ∅) then V ∪ NG else V.

  Lemma connect_spec order :
    (forall u, u ∈ order <-> u ∈ first_level r d) ->
    exists w, w_create isW order (w_empty d) r c attrs = (w, None) /\
      winv isW w r /\ gr (abs w) = connected_graph /\ reg (abs w) = {[r]} ∪ subjects V /\
      db w = d /\ ub w = Bufs {[r]} ∅ ∅ /\ root_kept r w /\ expd w = ∅.
  Proof.
    intros Hord. unfold w_create. rewrite decide_False by done.
    unfold w_store. change (wroot (w_empty d)) with (@None uid). fold NG.
    assert (store_checks isW None NG r = None) as Hsc.
    { unfold store_checks. assert (is_wrapper isW NG r = true) as ->.
      { unfold is_wrapper. apply existsb_exists. exists c. split; [|done].
        apply elem_of_list_In, elem_classes, NG_type. }
      rewrite (bool_decide_false (_ /\ _)) by tauto. simpl.
      destruct (classes NG r) eqn:E; [|done]. by apply new_graph_classes in E. }
    destruct (classes NG r) as [|c0 cs] eqn:Ec; [by apply new_graph_classes in Ec|].
    rewrite Hsc. rewrite decide_False by set_solver.
    match goal with |- context [in_engine _ ?X] => set (w1 := X) end.
    unfold in_engine. change (enter_engine w1) with (set_cur (set_eb w1 no_bufs) ENGINE).
    set (w2 := set_cur (set_eb w1 no_bufs) ENGINE).
    assert (forall u, u ∈ order -> u <> 0%N) as Ho0.
    { intros u Hu. apply Hord in Hu. unfold first_level in Hu. clear -Hu Hr. set_solver. }
    destruct (loading_all NG order ∅ w2) as (w3 & -> & L); [|done|].
    { constructor.
      - done.
      - done.
      - subst w2 w1. simpl. f_equal; clear; set_solver.
      - done.
      - done.
      - done.
      - intros u. change (wreg w2) with ((∅ : gset uid) ∪ {[r]}). clear; set_solver.
      - intros x p Hne. change (wgr w2) with ((∅ : graph) ∪ NG). rewrite elem_of_union. split.
        + intros [H|H]; [by apply elem_of_empty in H|]. by apply NG_only in H as [? _].
        + intros [_ [H|(_ & u & q & H & _)]]; by apply elem_of_empty in H.
      - intros p H. by apply elem_of_empty in H.
      - intros p _. change (wgr w2) with ((∅ : graph) ∪ NG). rewrite elem_of_union.
        split; [|tauto]. intros [H|H]; [by apply elem_of_empty in H|done].
      - intros q v. change (wgr w2) with ((∅ : graph) ∪ NG). rewrite elem_of_union.
        intros [H|H]; [by apply elem_of_empty in H|]. apply NG_only in H as [_ [?|(? & ? & ?)]]; done. }
    rewrite union_empty_r_L in L. set (P := list_to_set order : gset uid) in *.
    assert (forall u, u ∈ P <-> u = r \/ (u <> 0%N /\ exists q, (0%N, TLink q u) ∈ d)) as HP.
    { intros u. subst P. rewrite elem_of_list_to_set, Hord. unfold first_level.
      rewrite elem_of_union, elem_of_difference, !elem_of_singleton, elem_link_targets. tauto. }
    assert (r ∈ P) as HrP by (apply HP; by left).
    change (cur w1) with USER. set (w := set_cur w3 USER). exists w.
    destruct L as [L1 L2 L3 L4 L5 L6 L7 L8 L9 L10 L11].
    assert (db w = d) as Dw by exact L4.
    assert (wroot w = Some r) as Rw by exact L1.
    assert (ub w = Bufs {[r]} ∅ ∅) as Uw by exact L3.
    change (wreg w3) with (wreg w) in *. change (wgr w3) with (wgr w) in *.
    assert (expd w = ∅) as Ew by exact L6.
    assert (cur w = USER) as Kw by done. clearbody w. clear w3 L1 L2 L3 L4 L5 L6 w1 w2 Hsc.
    split; [done|].
    assert (forall x p, (x, p) ∈ gr (abs w) <-> (x, p) ∈ connected_graph) as GA.
    { intros x p. rewrite (elem_abs w r) by done. rewrite Uw, Dw. simpl. unfold connected_graph.
      destruct (decide (x = r)) as [->|Hne].
      - assert (r ∈ wreg w) as Hrr by (apply L7; by left).
        case_decide as Hem.
        + assert (forall p', (r, p') ∉ V) as Hnk.
          { intros p' Hp'. assert ((r, p') ∈ triples_of V r) as H by by apply elem_triples_of.
            rewrite Hem in H. by apply elem_of_empty in H. }
          rewrite (L10 p Hnk), elem_of_union. pose proof (Hnk p). tauto.
        + apply set_choose_L in Hem as [[y p'] Hy]. apply elem_triples_of in Hy as [Hy Heq].
          simpl in Heq. subst y. rewrite (L9 p HrP) by eauto. tauto.
      - assert ((x, p) ∈ connected_graph <-> (x, p) ∈ V) as Hcg.
        { unfold connected_graph. case_decide; [|done]. rewrite elem_of_union. split; [|tauto].
          intros [?|H9]; [done|]. by apply NG_only in H9 as [? _]. }
        unfold connected_graph in Hcg. rewrite Hcg. fold V.
        destruct (decide (x ∈ wreg w)) as [Hx|Hx].
        + rewrite (L8 x p Hne). apply L7 in Hx as Hx'. destruct Hx' as [?|[HxP _]]; [done|]. tauto.
        + pose proof (not_elem_of_empty (C := gset uid) x). tauto. }
    assert (forall x, x ∈ reg (abs w) <-> x = r \/ exists p, (x, p) ∈ V) as RA.
    { intros x. rewrite (elem_abs_reg w r) by done. rewrite Uw, Dw, L7. simpl. fold V.
      pose proof (not_elem_of_empty (C := gset uid) x). tauto. }
    assert (forall x p, (x, p) ∈ connected_graph <->
              (x, p) ∈ V \/ ((forall p', (r, p') ∉ V) /\ (x, p) ∈ NG)) as HCG.
    { intros x p. unfold connected_graph. case_decide as Hem.
      - rewrite elem_of_union. split; [|tauto]. intros [?|?]; [tauto|]. right. split; [|done].
        intros p' Hp'. assert ((r, p') ∈ triples_of V r) as H9 by by apply elem_triples_of.
        rewrite Hem in H9. by apply elem_of_empty in H9.
      - split; [tauto|]. intros [?|[Hnk _]]; [done|].
        apply set_choose_L in Hem as [[y p'] Hy]. apply elem_triples_of in Hy as [Hy Heq].
        simpl in Heq. subst y. by apply Hnk in Hy. }
    assert (forall p, (r, p) ∈ V -> (r, p) ∈ wgr w) as Hkeep.
    { intros p Hp. apply L9; eauto. }
    split.
    2: { split; [apply set_eq; intros [x p]; apply GA|]. split.
         - apply set_eq. intros x. rewrite RA, elem_of_union, elem_of_singleton, elem_subjects. done.
         - split; [done|]. split; [done|]. split; [|done]. intros _ p. rewrite Dw. apply Hkeep. }
    constructor; rewrite ?Uw, ?Dw; simpl; fold V.
    - done.
    - done.
    - apply L7. by left.
    - exact Hd.
    - constructor.
      + rewrite L7. intros [H|[H [p Hp]]]; [congruence|].
        apply elem_view in Hp as (y & ? & _ & Heq & _). symmetry in Heq. by apply sub_zero_nz in Heq.
      + intros x q H. destruct (decide (x = r)) as [->|Hne].
        * apply L11 in H. by apply map_graph_nz in H.
        * apply L8 in H as [H _]; [|done]. by apply map_graph_nz in H.
      + congruence.
    - intros u p Hu Hp. rewrite L7 in Hu. assert (u <> r) as Hne by tauto.
      destruct (proj1 (L8 u p Hne) Hp) as [Hv [HuP|[Ht _]]].
      + exfalso. apply Hu. right. eauto.
      + split; [done|]. split; [apply not_elem_of_empty|done].
    - intros u Hu Hb p. unfold buids in Hb. simpl in Hb. assert (u <> r) as Hne by (clear -Hb; set_solver).
      apply L7 in Hu as [?|[HuP _]]; [done|]. rewrite (L8 u p Hne). tauto.
    - intros u Hu. apply elem_of_singleton in Hu as ->. split; [apply L7; by left|done].
    - intros u Hu. by apply elem_of_empty in Hu.
    - intros u Hu. by apply elem_of_empty in Hu.
    - intros u c' Hu Hv. destruct (decide (u = r)) as [->|Hne]; [by apply Hkeep|].
      apply L8; [done|]. apply L7 in Hu as [?|[HuP _]]; [done|]. tauto.
    - intros u Hu. rewrite Ew in Hu. by apply elem_of_empty in Hu.
    - intros u _. apply not_elem_of_empty.
    - intros x q v c' Hx Hl Hv Ht.
      assert (v <> r) as Hvr. { intros ->. apply Hv, L7. by left. }
      apply L8; [done|]. split; [done|]. right. split; [eauto|]. exists x, q.
      destruct (decide (x = r)) as [->|Hne]; [split; [done|by apply L11]|].
      apply L8 in Hl as [Hl _]; [|done]. split; [|done]. by apply L7 in Hx as [?|[? _]].
    - intros x q v H. apply GA, HCG in H as [H|[_ H]].
      + apply RA. right. by eapply V_closed.
      + apply NG_only in H as [_ [?|(? & ? & ?)]]; done.
    - intros u Hu. apply RA in Hu. setoid_rewrite GA. setoid_rewrite HCG.
      destruct (decide (triples_of V u = ∅)) as [Hem|Hem].
      + assert (forall p', (u, p') ∉ V) as Hnk.
        { intros p' Hp'. assert ((u, p') ∈ triples_of V u) as H by by apply elem_triples_of.
          rewrite Hem in H. by apply elem_of_empty in H. }
        destruct Hu as [->|[p Hp]]; [|by apply Hnk in Hp]. exists c. right. split; [done|apply NG_type].
      + apply set_choose_L in Hem as [[y p'] Hy]. apply elem_triples_of in Hy as [Hy Heq].
        simpl in Heq. subst y. apply V_typed in Hy as [c' Hc']. eauto.
    - intros u c' H Hne. apply GA, HCG in H as [H|[_ H]]; [by apply (V_wrap u)|].
      by apply NG_only in H as [? _].
  Qed.
End connect.

(** What a commit leaves behind can be connected to again. *)
Lemma committed_good isW w r :
  winv isW w r -> root_kept r w -> good_db isW (committed r w).
Proof.
  intros Hw Hk. pose proof (wi_r0 _ _ _ Hw) as Hr0. pose proof (view_committed _ _ _ Hw Hk) as Hv.
  pose proof (committed_no_uid _ _ _ Hw) as Hno.
  assert (forall x p, (x, p) ∈ committed r w -> (sub_zero r x, map_po (sub_zero r) p) ∈ gr (abs w)) as Hf.
  { intros x p Hin. rewrite <- Hv. apply elem_view. eauto. }
  assert (forall x p, (sub_zero r x, p) ∈ gr (abs w) -> x <> r -> (x, map_po (sub_root r) p) ∈ committed r w) as Hb.
  { intros x p Hin Hx. rewrite <- Hv in Hin. apply elem_view_inv in Hin as (_ & _ & Hin); [|done|done].
    by rewrite sub_root_zero in Hin. }
  assert (forall x p, (sub_zero r x, p) ∈ gr (abs w) -> sub_zero r x ∈ reg (abs w)) as Hreg.
  { intros x p Hin. apply (elem_abs w r) in Hin; [|apply Hw]. apply (elem_abs_reg w r); [apply Hw|]. naive_solver. }
  constructor.
  - intros u p Hin. destruct (Hno _ _ Hin) as [Hur _]. apply Hf in Hin. apply Hreg in Hin.
    destruct (wi_typed _ _ _ Hw _ Hin) as [c Hc]. exists c. by apply Hb in Hc.
  - intros u q v Hin. destruct (Hno _ _ Hin) as [Hur Hvr]. apply Hf in Hin. simpl in Hin.
    apply (wi_tclosed _ _ _ Hw) in Hin. destruct (wi_typed _ _ _ Hw _ Hin) as [c Hc].
    apply Hb in Hc; [eauto|]. intros ->. by apply (Hvr q).
  - intros u c Hin Hu0. destruct (Hno _ _ Hin) as [Hur _]. apply Hf in Hin. simpl in Hin.
    apply (wi_wrap _ _ _ Hw _ _ Hin). unfold sub_zero. by rewrite decide_False.
Qed.
