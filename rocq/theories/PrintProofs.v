(** Proofs about the lines of pretty_print (Print.v), for arbitrary sorted
    relationships and objects. *)
From stdpp Require Import base sets list gmap sorting relations.
From Verif Require Import Prelude Utf8 Cuds Print.
Local Open Scope nat_scope.

(** The objects printed in full, in order. *)
Fixpoint fulls (ls : list line) : list uid :=
  match ls with
  | [] => []
  | LObj _ _ _ b true :: l => b :: fulls l
  | _ :: l => fulls l
  end.

(** The lines that belong to the object a and its relationship r, in order: None is
    the header of the relationship, [Some b] a line for the object b. *)
Fixpoint about (a : uid) (r : rel) (ls : list line) : list (option uid) :=
  match ls with
  | [] => []
  | LRel _ a' r' :: l => if decide (a' = a /\ r' = r) then None :: about a r l else about a r l
  | LObj _ a' r' b _ :: l => if decide (a' = a /\ r' = r) then Some b :: about a r l else about a r l
  end.

(** Reading the indentation back: [own k] is the object whose subelements are
    printed at level k, [hd k] the last header at that level. *)
Fixpoint nested (own : nat -> uid) (hd : nat -> option rel) (ls : list line) : Prop :=
  match ls with
  | [] => True
  | LRel k a r :: l => own k = a /\ nested own (fun i => if decide (i = k) then Some r else hd i) l
  | LObj k a r b full :: l =>
      own k = a /\ hd k = Some r /\ nested (fun i => if decide (i = S k) then b else own i) hd l
  end.
Fixpoint after_own (own : nat -> uid) (ls : list line) : nat -> uid :=
  match ls with
  | [] => own
  | LRel _ _ _ :: l => after_own own l
  | LObj k _ _ b _ :: l => after_own (fun i => if decide (i = S k) then b else own i) l
  end.
Fixpoint after_hd (hd : nat -> option rel) (ls : list line) : nat -> option rel :=
  match ls with
  | [] => hd
  | LRel k _ r :: l => after_hd (fun i => if decide (i = k) then Some r else hd i) l
  | LObj _ _ _ _ _ :: l => after_hd hd l
  end.
Definition level (l : line) : nat := match l with LRel k _ _ => k | LObj k _ _ _ _ => k end.

Lemma fulls_app l1 l2 : fulls (l1 ++ l2) = fulls l1 ++ fulls l2.
Proof. induction l1 as [|[?? ?|? ? ? ? []] l1 IH]; simpl; rewrite ?IH; done. Qed.
Lemma about_app a r l1 l2 : about a r (l1 ++ l2) = about a r l1 ++ about a r l2.
Proof. induction l1 as [|[]]; simpl; [done|case_decide; simpl; congruence..]. Qed.
Lemma nested_app own hd l1 l2 :
  nested own hd (l1 ++ l2) <-> nested own hd l1 /\ nested (after_own own l1) (after_hd hd l1) l2.
Proof.
  revert own hd. induction l1 as [|[] l1 IH]; intros own hd; cbn [app nested after_own after_hd];
    [tauto| |]; rewrite IH; tauto.
Qed.
Lemma after_own_low own ls k :
  Forall (fun l => k <= level l) ls -> forall i, i <= k -> after_own own ls i = own i.
Proof.
  intros H. revert own. induction H as [|[] ls Hl _ IH]; intros own i Hi; simpl in *; [done|by apply IH|].
  rewrite IH by done. case_decide; [lia|done].
Qed.
Lemma after_hd_low hd ls k :
  Forall (fun l => k <= level l) ls -> forall i, i < k -> after_hd hd ls i = hd i.
Proof.
  intros H. revert hd. induction H as [|[] ls Hl _ IH]; intros hd i Hi; simpl in *; [done| |by apply IH].
  rewrite IH by done. case_decide; [lia|done].
Qed.

Section Proofs.
  Context (rels : uid -> list rel) (kids : uid -> rel -> res (list (uid * rel))) (univ : gset uid).

  (** The objects to be printed under the header of r. *)
  Definition own_of (r : rel) (ps : list (uid * rel)) : list uid :=
    omap (fun bq : uid * rel => if decide (snd bq = r) then Some (fst bq) else None) ps.
  Definition below (a b : uid) : Prop := exists r ps, r ∈ rels a /\ kids a r = Ok ps /\ b ∈ own_of r ps.
  Definition bad (a : uid) : Prop := exists r, r ∈ rels a /\ kids a r = Err TypeError.

  Context (Hrels : forall u, NoDup (rels u))
    (Hkids : forall u r, u ∈ univ -> r ∈ rels u -> kids u r = Err TypeError \/
       exists ps, kids u r = Ok ps /\ forall b q, (b, q) ∈ ps -> b ∈ univ).

  (** The lines of the objects expanded in [ls] are complete. *)
  Definition expanded (a : uid) (ls : list line) : Prop :=
    forall r, (r ∈ rels a -> exists ps, kids a r = Ok ps /\ about a r ls = None :: (Some <$> own_of r ps)) /\
              (r ∉ rels a -> about a r ls = []).

  Record seg (u : uid) (V V' : gset uid) (ls : list line) : Prop := Seg {
    s_vis : forall x, x ∈ V' <-> x ∈ V \/ x ∈ fulls ls;
    s_nodup : NoDup (fulls ls);
    s_new : forall x, x ∈ fulls ls -> x ∉ V;
    s_full : forall a, a <> u -> a ∈ fulls ls -> expanded a ls;
    s_other : forall a r, a <> u -> a ∉ fulls ls -> about a r ls = [];
    s_tgt : forall k a r b f, LObj k a r b f ∈ ls -> b ∈ V';
    s_already : forall l1 k a r b l2, ls = l1 ++ LObj k a r b false :: l2 -> b ∈ V \/ b ∈ fulls l1;
    s_univ : forall x, x ∈ fulls ls -> x ∈ univ;
    s_reach : forall x, x ∈ fulls ls -> rtc below u x;
  }.

  Lemma seg_nil u V : seg u V V [].
  Proof.
    split.
    - intros x. simpl. rewrite elem_of_nil. tauto.
    - constructor.
    - intros x Hx. by apply elem_of_nil in Hx.
    - intros a _ Hx. by apply elem_of_nil in Hx.
    - done.
    - intros k a r b f H. by apply elem_of_nil in H.
    - intros l1 k a r b l2 H. by destruct l1.
    - intros x Hx. by apply elem_of_nil in Hx.
    - intros x Hx. by apply elem_of_nil in Hx.
  Qed.

  Lemma seg_app u V V1 V2 l1 l2 :
    seg u V V1 l1 -> seg u V1 V2 l2 -> u ∈ V -> seg u V V2 (l1 ++ l2).
  Proof.
    intros H1 H2 Hu.
    assert (Hd : forall x, x ∈ fulls l1 -> x ∈ fulls l2 -> False).
    { intros x Hx1 Hx2. apply (s_new _ _ _ _ H2 x Hx2), (s_vis _ _ _ _ H1). by right. }
    split.
    - intros x. rewrite (s_vis _ _ _ _ H2), (s_vis _ _ _ _ H1), fulls_app, elem_of_app. tauto.
    - rewrite fulls_app. apply NoDup_app. split; [apply H1|]. split; [|apply H2].
      intros x Hx1 Hx2. by eapply Hd.
    - intros x. rewrite fulls_app, elem_of_app. intros [Hx|Hx]; [by apply H1|].
      intros HV. apply (s_new _ _ _ _ H2 x Hx), (s_vis _ _ _ _ H1). by left.
    - intros a Ha. rewrite fulls_app, elem_of_app. intros [Hx|Hx] r; rewrite about_app.
      + rewrite (s_other _ _ _ _ H2 a r Ha), app_nil_r by (intros ?; by eapply Hd).
        by apply (s_full _ _ _ _ H1).
      + rewrite (s_other _ _ _ _ H1 a r Ha) by (intros ?; by eapply Hd).
        by apply (s_full _ _ _ _ H2).
    - intros a r Ha. rewrite fulls_app, elem_of_app. intros Hn. rewrite about_app.
      rewrite (s_other _ _ _ _ H1), (s_other _ _ _ _ H2) by tauto. done.
    - intros k a r b f. rewrite elem_of_app. intros [Hx|Hx].
      + apply (s_vis _ _ _ _ H2). left. by eapply (s_tgt _ _ _ _ H1).
      + by eapply (s_tgt _ _ _ _ H2).
    - intros m1 k a r b m2 Heq.
      destruct (decide (length m1 < length l1)) as [Hlt|Hge].
      + assert (exists m3, l1 = m1 ++ LObj k a r b false :: m3) as [m3 Hl1].
        { exists (drop (S (length m1)) l1).
          assert (Hlk : (l1 ++ l2) !! length m1 = Some (LObj k a r b false)) by (rewrite Heq; by apply list_lookup_middle).
          rewrite lookup_app_l in Hlk by done.
          assert (Htk : take (length m1) (l1 ++ l2) = m1) by (rewrite Heq; by rewrite take_app).
          rewrite take_app_le in Htk by lia.
          rewrite <- Htk at 1. symmetry. by apply take_drop_middle. }
        by eapply (s_already _ _ _ _ H1).
      + assert (exists m3, m1 = l1 ++ m3) as [m3 ->].
        { exists (drop (length l1) m1). apply (f_equal (take (length m1))) in Heq.
          rewrite take_app in Heq. rewrite take_app_ge in Heq by lia.
          rewrite <- Heq at 1. f_equal.
          rewrite <- Heq at 2. rewrite drop_app. done. }
        rewrite <- app_assoc in Heq. apply app_inv_head in Heq.
        destruct (s_already _ _ _ _ H2 _ _ _ _ _ _ Heq) as [Hb|Hb].
        * apply (s_vis _ _ _ _ H1) in Hb as [Hb|Hb]; [by left|].
          right. rewrite fulls_app, elem_of_app. by left.
        * right. rewrite fulls_app, elem_of_app. by right.
    - intros x. rewrite fulls_app, elem_of_app. intros [?|?]; [by apply H1|by apply H2].
    - intros x. rewrite fulls_app, elem_of_app. intros [?|?]; [by apply H1|by apply H2].
  Qed.

  Lemma seg_again u V k r b : b ∈ V -> seg u V V [LObj k u r b false].
  Proof.
    intros Hb. split.
    - intros x. simpl. rewrite elem_of_nil. tauto.
    - constructor.
    - intros x Hx. by apply elem_of_nil in Hx.
    - intros a _ Hx. by apply elem_of_nil in Hx.
    - intros a r' Ha _. simpl. case_decide as Hc; [|done]. destruct Hc. congruence.
    - intros k' a' r' b' f H. apply elem_of_list_singleton in H. injection H as _ _ _ -> _. done.
    - intros l1 k' a r' b' l2 Heq. destruct l1 as [|x l1]; [left; injection Heq as _ _ _ <- _; done|].
      by destruct l1.
    - intros x Hx. by apply elem_of_nil in Hx.
    - intros x Hx. by apply elem_of_nil in Hx.
  Qed.

  Lemma seg_head u V k r : seg u V V [LRel k u r].
  Proof.
    split.
    - intros x. simpl. rewrite elem_of_nil. tauto.
    - constructor.
    - intros x Hx. by apply elem_of_nil in Hx.
    - intros a _ Hx. by apply elem_of_nil in Hx.
    - intros a r' Ha _. simpl. case_decide as Hc; [|done]. destruct Hc. congruence.
    - intros k' a' r' b' f H. by apply elem_of_list_singleton in H.
    - intros l1 k' a r' b' l2 Heq. destruct l1 as [|x l1]; [done|]. by destruct l1.
    - intros x Hx. by apply elem_of_nil in Hx.
    - intros x Hx. by apply elem_of_nil in Hx.
  Qed.

  Lemma expanded_other a ls l :
    (forall r, about a r l = []) -> expanded a ls -> expanded a (l ++ ls).
  Proof. intros H He r. rewrite about_app, H. apply He. Qed.

  Lemma seg_sub u V V1 k r b ls :
    u ∈ V -> b ∉ V -> b ∈ univ -> below u b ->
    seg b (V ∪ {[b]}) V1 ls -> expanded b ls -> seg u V V1 (LObj k u r b true :: ls).
  Proof.
    intros Hu Hb Hbu Hbel H He.
    assert (Hub : u <> b) by congruence.
    assert (Hbf : b ∉ fulls ls) by (intros ?%(s_new _ _ _ _ H); set_solver).
    assert (Hab : forall a, a <> u -> forall r', about a r' [LObj k u r b true] = []).
    { intros a Ha r'. simpl. case_decide as Hc; [|done]. destruct Hc. congruence. }
    change (LObj k u r b true :: ls) with ([LObj k u r b true] ++ ls).
    split.
    - intros x. rewrite (s_vis _ _ _ _ H). cbn [app fulls]. rewrite elem_of_cons, elem_of_union, elem_of_singleton. tauto.
    - cbn [app fulls]. apply stdpp.list.NoDup_cons. split; [done|apply H].
    - intros x. cbn [app fulls]. rewrite elem_of_cons. intros [->|Hx]; [done|].
      intros HV. apply (s_new _ _ _ _ H x Hx). set_solver.
    - intros a Ha Hx. apply expanded_other; [by apply Hab|].
      cbn [app fulls] in Hx. apply elem_of_cons in Hx as [->|Hx]; [done|].
      apply (s_full _ _ _ _ H); [congruence|done].
    - intros a r' Ha Hx. cbn [app fulls] in Hx. rewrite about_app, Hab by done.
      apply not_elem_of_cons in Hx as [Hx1 Hx2]. by apply (s_other _ _ _ _ H).
    - intros k' a r' b' f. rewrite elem_of_app, elem_of_list_singleton. intros [Heq|Hx].
      + assert (b' = b) as -> by congruence. apply (s_vis _ _ _ _ H). set_solver.
      + by eapply (s_tgt _ _ _ _ H).
    - intros l1 k' a r' b' l2 Heq. destruct l1 as [|x l1]; [simplify_eq/=|].
      injection Heq as <- Heq. destruct (s_already _ _ _ _ H _ _ _ _ _ _ Heq) as [Hb'|Hb'].
      + apply elem_of_union in Hb' as [?|Hs]; [by left|]. apply elem_of_singleton in Hs as ->. right. cbn. by left.
      + right. cbn. by right.
    - intros x. cbn [app fulls]. rewrite elem_of_cons. intros [->|Hx]; [done|by apply H].
    - intros x. cbn [app fulls]. rewrite elem_of_cons. intros [->|Hx]; [by apply rtc_once|].
      eapply rtc_l; [done|by apply H].
  Qed.

  Definition good_rec (f : nat) (rec : uid -> gset uid -> res (gset uid * list line)) : Prop :=
    forall b V, b ∈ univ -> b ∉ V -> size (univ ∖ (V ∪ {[b]})) < f ->
      (exists V1 ls, rec b V = Ok (V1, ls) /\ seg b (V ∪ {[b]}) V1 ls /\ expanded b ls) \/
      (rec b V = Err TypeError /\ exists a, rtc below b a /\ bad a).

  Lemma about_diff a r l : (forall k q b f, LObj k a q b f ∈ l -> q <> r) ->
    (forall k q, LRel k a q ∈ l -> q <> r) -> about a r l = [].
  Proof.
    induction l as [|[k a' q|k a' q b f] l IH]; intros H1 H2; simpl; [done| |].
    - case_decide as Hc; [destruct Hc; subst; exfalso; eapply H2; [by left|done]|].
      apply IH; intros; [eapply H1|eapply H2]; by right.
    - case_decide as Hc; [destruct Hc; subst; exfalso; eapply H1; [by left|done]|].
      apply IH; intros; [eapply H1|eapply H2]; by right.
  Qed.

  Lemma pp_objs_spec f rec k u r ps0 ps V :
    good_rec f rec -> u ∈ univ -> r ∈ rels u -> kids u r = Ok ps0 ->
    (forall x, x ∈ ps -> x ∈ ps0) -> (forall b q, (b, q) ∈ ps0 -> b ∈ univ) ->
    u ∈ V -> size (univ ∖ V) <= f ->
    (exists V' ls, pp_objs rec k u r ps V = Ok (V', ls) /\ seg u V V' ls /\
       (forall r', about u r' ls = if decide (r' = r) then Some <$> own_of r ps else [])) \/
    (pp_objs rec k u r ps V = Err TypeError /\ exists a, rtc below u a /\ bad a).
  Proof.
    intros Hrec Huu Hr Hps0 Hsub Huniv. revert V.
    induction ps as [|[b q] ps IH]; intros V Hu Hsz; cbn [pp_objs].
    { left. exists V, []. split; [done|]. split; [apply seg_nil|]. intros r'. by case_decide. }
    assert (IH' := IH (fun x Hx => Hsub x (elem_of_list_further _ _ _ Hx))). clear IH.
    destruct (decide (q = r)) as [->|Hq].
    2:{ destruct (IH' V Hu Hsz) as [(V' & ls & -> & Hs & Ha)|[-> Hbad]]; [left|by right].
        exists V', ls. split; [done|]. split; [done|]. intros r'. rewrite Ha. cbn [own_of omap list_omap snd].
        case_decide as Hd; [|done]. f_equal. unfold own_of. csimpl. by rewrite decide_False by done. }
    assert (Hown : own_of r ((b, r) :: ps) = b :: own_of r ps).
    { unfold own_of. csimpl. by rewrite decide_True by done. }
    assert (Hbel : below u b).
    { exists r, ps0. split; [done|]. split; [done|]. unfold own_of. apply elem_of_list_omap.
      exists (b, r). split; [apply Hsub; by left|]. simpl. by rewrite decide_True. }
    destruct (decide (b ∈ V)) as [HbV|HbV].
    - destruct (IH' V Hu Hsz) as [(V' & ls & -> & Hs & Ha)|[-> Hbad]]; [left|by right].
      exists V', (LObj k u r b false :: ls). split; [done|]. split.
      + apply (seg_app u V V V' [LObj k u r b false]); [by apply seg_again|done..].
      + intros r'. rewrite Hown. cbn [about]. rewrite Ha.
        destruct (decide (r' = r)) as [->|Hne]; [by rewrite decide_True by done|].
        rewrite decide_False by (intros []; congruence). done.
    - assert (Hbu : b ∈ univ) by (eapply Huniv, Hsub; by left).
      destruct (Hrec b V Hbu HbV) as [(V1 & ls1 & -> & Hs1 & He1)|[-> (a & Ha & Hbad)]].
      + eapply Nat.lt_le_trans; [|exact Hsz]. apply subset_size. split; [set_solver|].
        intros Hss. assert (b ∈ univ ∖ (V ∪ {[b]})) by (apply Hss; set_solver). set_solver.
      + assert (HV1 : V ⊆ V1) by (intros x Hx; apply (s_vis _ _ _ _ Hs1); set_solver).
        destruct (IH' V1) as [(V' & ls & -> & Hs & Ha)|[-> Hbad]].
        * by apply HV1.
        * etrans; [|exact Hsz]. apply subseteq_size. set_solver.
        * left. exists V', (LObj k u r b true :: ls1 ++ ls). split; [done|].
          pose proof (seg_sub u V V1 k r b ls1 Hu HbV Hbu Hbel Hs1 He1) as Hseg.
          split; [by apply (seg_app u V V1 V' (LObj k u r b true :: ls1))|].
          intros r'. rewrite Hown. cbn [about]. rewrite about_app, Ha.
          rewrite (s_other _ _ _ _ Hs1 u r').
          -- destruct (decide (r' = r)) as [->|Hne]; [by rewrite decide_True by done|].
             rewrite decide_False by (intros []; congruence). done.
          -- congruence.
          -- intros Hx. apply (s_new _ _ _ _ Hs1 u Hx). set_solver.
        * by right.
      + right. split; [done|]. exists a. split; [|done]. by eapply rtc_l.
  Qed.

  Lemma pp_rels_spec f rec k u rs V :
    good_rec f rec -> u ∈ univ -> (forall r, r ∈ rs -> r ∈ rels u) -> NoDup rs ->
    u ∈ V -> size (univ ∖ V) <= f ->
    (exists V' ls, pp_rels kids rec k u rs V = Ok (V', ls) /\ seg u V V' ls /\
       (forall r, (r ∈ rs -> exists ps, kids u r = Ok ps /\ about u r ls = None :: (Some <$> own_of r ps)) /\
                  (r ∉ rs -> about u r ls = []))) \/
    (pp_rels kids rec k u rs V = Err TypeError /\ exists a, rtc below u a /\ bad a).
  Proof.
    intros Hrec Huu Hsub. revert V. induction rs as [|r rs IH]; intros V Hnd Hu Hsz; cbn [pp_rels].
    { left. exists V, []. split; [done|]. split; [apply seg_nil|]. intros r. split; [set_solver|done]. }
    apply stdpp.list.NoDup_cons in Hnd as [Hnin Hnd].
    assert (Hr : r ∈ rels u) by (apply Hsub; by left).
    destruct (Hkids u r Huu Hr) as [Hk|(ps & Hk & Hun)].
    { right. rewrite Hk. split; [done|]. exists u. split; [done|]. by exists r. }
    rewrite Hk.
    destruct (pp_objs_spec f rec k u r ps ps V Hrec Huu Hr Hk (fun x H => H) Hun Hu Hsz)
      as [(V1 & ls1 & -> & Hs1 & Ha1)|[-> Hbad]]; [|by right].
    destruct (IH (fun r' H => Hsub r' (elem_of_list_further _ _ _ H)) V1 Hnd)
      as [(V' & ls & -> & Hs & Ha)|[-> Hbad]].
    - apply (s_vis _ _ _ _ Hs1). by left.
    - etrans; [|exact Hsz]. apply subseteq_size. intros x. rewrite !elem_of_difference, (s_vis _ _ _ _ Hs1). tauto.
    - left. exists V', (LRel k u r :: ls1 ++ ls). split; [done|]. split.
      + apply (seg_app u V V V' [LRel k u r]); [apply seg_head| |done].
        by apply (seg_app u V V1 V').
      + intros r'. cbn [about]. rewrite about_app, Ha1. split.
        * intros [->|Hr']%elem_of_cons.
          -- exists ps. split; [done|]. rewrite decide_True by done. rewrite decide_True by done.
             destruct (Ha r) as [_ Hn]. rewrite (Hn Hnin), app_nil_r. done.
          -- destruct (Ha r') as [Hy _]. destruct (Hy Hr') as (ps' & Hk' & Hab).
             exists ps'. split; [done|]. assert (r' <> r) by congruence.
             rewrite decide_False by (intros []; congruence). rewrite decide_False by done. done.
        * intros [Hn1 Hn2]%not_elem_of_cons. rewrite decide_False by (intros []; congruence).
          rewrite decide_False by done. by apply Ha.
    - by right.
  Qed.

  Lemma pp_spec f : forall k, good_rec f (pp_subelements rels kids f k).
  Proof.
    induction f as [|f IH]; intros k u V Hu HV Hsz; [lia|]. cbn [pp_subelements].
    destruct (pp_rels_spec f (pp_subelements rels kids f (S k)) k u (rels u) (V ∪ {[u]}))
      as [(V' & ls & -> & Hs & Ha)|[-> Hbad]];
      [by intros; apply IH|done|done|by apply Hrels|set_solver|lia| |by right].
    left. eauto.
  Qed.

End Proofs.

(** Indentation *)
Section Indent.
  Context (rels : uid -> list rel) (kids : uid -> rel -> res (list (uid * rel))).
  Definition good_indent (rec : uid -> gset uid -> res (gset uid * list line)) (k : nat) : Prop :=
    forall b V V' ls own hd, rec b V = Ok (V', ls) -> own k = b ->
      nested own hd ls /\ Forall (fun l => k <= level l) ls.

  Lemma pp_objs_indent rec k u r ps V V' ls own hd :
    good_indent rec (S k) -> pp_objs rec k u r ps V = Ok (V', ls) -> own k = u -> hd k = Some r ->
    nested own hd ls /\ Forall (fun l => k <= level l) ls.
  Proof.
    intros Hrec. revert V V' ls own hd.
    induction ps as [|[b q] ps IH]; intros V V' ls own hd; cbn [pp_objs].
    { intros [= <- <-] _ _. split; [done|constructor]. }
    destruct (decide (q = r)); [|by apply IH]. destruct (decide (b ∈ V)).
    - destruct (pp_objs rec k u r ps V) as [[v l]|] eqn:E; [|done]. intros [= <- <-] Ho Hh.
      edestruct (IH _ _ _ (fun i => if decide (i = S k) then b else own i) hd E) as [H1 H2]; [|done|].
      { rewrite decide_False by lia. done. }
      cbn [nested]. split; [done|]. constructor; [simpl; lia|done].
    - destruct (rec b V) as [[v1 l1]|] eqn:E1; [|done].
      destruct (pp_objs rec k u r ps v1) as [[v l]|] eqn:E; [|done]. intros [= <- <-] Ho Hh.
      destruct (Hrec _ _ _ _ (fun i => if decide (i = S k) then b else own i) hd E1) as [Hn1 Hl1].
      { by rewrite decide_True by done. }
      edestruct (IH _ _ _ (after_own (fun i => if decide (i = S k) then b else own i) l1) (after_hd hd l1) E) as [H1 H2].
      { rewrite (after_own_low _ _ (S k)) by (done || lia). rewrite decide_False by lia. done. }
      { rewrite (after_hd_low _ _ (S k)) by (done || lia). done. }
      cbn [nested]. rewrite nested_app. split; [done|]. constructor; [simpl; lia|].
      apply Forall_app. split; [|done]. eapply Forall_impl; [done|]. simpl. intros. lia.
  Qed.

  Lemma pp_rels_indent rec k u rs V V' ls own hd :
    good_indent rec (S k) -> pp_rels kids rec k u rs V = Ok (V', ls) -> own k = u ->
    nested own hd ls /\ Forall (fun l => k <= level l) ls.
  Proof.
    intros Hrec. revert V V' ls own hd.
    induction rs as [|r rs IH]; intros V V' ls own hd; cbn [pp_rels].
    { intros [= <- <-] _. split; [done|constructor]. }
    destruct (kids u r) as [ps|]; [|done].
    destruct (pp_objs rec k u r ps V) as [[v1 l1]|] eqn:E1; [|done].
    destruct (pp_rels kids rec k u rs v1) as [[v l]|] eqn:E; [|done]. intros [= <- <-] Ho.
    destruct (pp_objs_indent rec k u r ps V v1 l1 own (fun i => if decide (i = k) then Some r else hd i))
      as [Hn1 Hl1]; [done..|by rewrite decide_True by done|].
    destruct (IH _ _ _ (after_own own l1) (after_hd (fun i => if decide (i = k) then Some r else hd i) l1) E) as [H1 H2].
    { by rewrite (after_own_low _ _ k) by (done || lia). }
    cbn [nested]. rewrite nested_app. split; [done|]. constructor; [simpl; lia|].
    apply Forall_app. done.
  Qed.

  Lemma pp_indent f : forall k, good_indent (pp_subelements rels kids f k) k.
  Proof.
    induction f as [|f IH]; intros k u V V' ls own hd; [done|]. cbn [pp_subelements].
    intros H Ho. eapply pp_rels_indent; [apply IH|done|done].
  Qed.
End Indent.
