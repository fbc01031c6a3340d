(** Search for one object in a wrapper session: osp/core/utils/simple_search.py:4-48 with
    find_all=False and unlimited depth, 55-75 [find_cuds_object_by_uid].

    As in WrapperFind.v the children come from a session.load generator; once an
    object has been found the generators are dropped, so the remaining children
    are not loaded.  Simplification: the criterion only looks at the uid. *)
From stdpp Require Import base sets list gmap countable.
From Verif Require Import Prelude Cuds CudsProofs Wrapper WrapperProofs WrapperRefine WrapperOps PropTraverse WrapperFind.

Section first.
  Context (isW : cls -> bool) (O : onto) (rf : option rel) (crit : uid -> bool).

  (** The loop over root.iter(rel=rel), simple_search.py:34-47 *)
  Fixpoint w_first_subs (rec : uid -> gset uid -> wsess -> option (wsess * gset uid * res (option uid)))
    (missing : gset uid) (us subs : list uid) (visited : gset uid) (w : wsess)
    : option (wsess * gset uid * res (option uid)) :=
    match subs with
    | [] => Some (w, visited, Ok None)
    | u :: subs' =>
        match in_engine (load_next isW missing us u) w with
        | (w1, Err e) => Some (w1, visited, Err e)
        | (w1, Ok None) => Some (w1, visited, Err AttributeError)
        | (w1, Ok (Some x)) =>
            if decide (x ∈ visited) then w_first_subs rec missing us subs' visited w1
            else match rec x visited w1 with
                 | None => None
                 | Some (w2, v2, Err e) => Some (w2, v2, Err e)
                 | Some (w2, v2, Ok (Some y)) => Some (w2, v2, Ok (Some y))
                 | Some (w2, v2, Ok None) => w_first_subs rec missing us subs' v2 w2
                 end
        end
    end.

  (** simple_search.py:4-48 [find_cuds_object]; None = out of fuel. *)
  Fixpoint w_first (fuel : nat) (root : uid) (visited : gset uid) (w : wsess)
    : option (wsess * gset uid * res (option uid)) :=
    match fuel with
    | 0%nat => None
    | S fuel =>
        let visited := visited ∪ {[root]} in
        if crit root then Some (w, visited, Ok (Some root))
        else
        match w_get_ isW O w root [] rf None with
        | (w1, Err e) => Some (w1, visited, Err e)
        | (w1, Ok (found, _)) =>
            let us := omap id found in
            match us, wroot w1 with
            | [], _ => Some (w1, visited, Ok None)
            | _, None => Some (w1, visited, Err RuntimeError)
            | _, Some _ =>
                w_first_subs (w_first fuel) (list_to_set (missing_uids w1 us)) us us visited (load_prelude w1 us)
            end
        end
    end.
End first.

(** ** Proofs *)
Section proofs.
  Context (isW : cls -> bool) (O : onto) (rf : option rel) (crit : uid -> bool) (r : uid).

  (** What a (partial) search has done: V was visited before, V' after. *)
  Record looked (root : uid) (w w' : wsess) (V V' : gset uid) (o : option uid) : Prop := {
    lo_inv : winv isW w' r;
    lo_rel : lrel w w';
    lo_mono : V ⊆ V';
    lo_sub : forall x, x ∈ V' -> x ∉ V -> x ∈ wreg w' /\ reachable_via O (abs w) rf root x;
    lo_res : match o with
             | Some x => x ∈ V' /\ x ∉ V /\ crit x = true
             | None => (forall x, x ∈ V' -> x ∉ V -> crit x = false) /\
                       (forall x y, x ∈ V' -> x ∉ V -> related O (abs w) rf x y -> y ∈ V')
             end
  }.

  Lemma w_first_subs_spec rec missing us root fuel :
    (forall w x V, winv isW w r -> x ∈ wreg w -> x ∉ V -> (size (reg (abs w) ∖ V) <= fuel)%nat ->
       exists w' V' o, rec x V w = Some (w', V', Ok o) /\ x ∈ V' /\ looked x w w' V V' o) ->
    forall subs w V,
      winv isW w r -> (size (reg (abs w) ∖ V) <= fuel)%nat ->
      (forall u, u ∈ subs -> related O (abs w) rf root u /\ u <> 0%N /\ u ∉ bdel (ub w) /\
         (u ∈ missing -> u ∉ badd (ub w) /\ u ∉ bupd (ub w)) /\ (u ∉ missing -> u ∈ wreg w)) ->
      exists w' V' o, w_first_subs isW rec missing us subs V w = Some (w', V', Ok o) /\
        (o = None -> forall u, u ∈ subs -> u ∈ V') /\ looked root w w' V V' o.
  Proof.
    intros Hrec. induction subs as [|u subs IH]; intros w V Hw Hf Hs; cbn [w_first_subs].
    { exists w, V, None. split; [done|]. split; [intros _ u Hu; by apply elem_of_nil in Hu|].
      constructor; [done|apply lrel_refl|done|done|done]. }
    destruct (Hs u) as (Hr & Hu0 & Hud & Hum & Hun); [by left|].
    destruct (load_elem_spec isW missing us u w r Hw Hu0 Hud) as (w1 & -> & Hw1 & Hl1 & Hin1 & _);
      [by intros; apply Hum|done|].
    pose proof (related_reg isW O rf r _ _ _ Hw Hr) as Hureg.
    unfold found. rewrite decide_True by done.
    assert (Hs1 : forall w', lrel w w' -> forall u, u ∈ subs -> related O (abs w') rf root u /\ u <> 0%N /\ u ∉ bdel (ub w') /\
         (u ∈ missing -> u ∉ badd (ub w') /\ u ∉ bupd (ub w')) /\ (u ∉ missing -> u ∈ wreg w')).
    { intros w' Hl x Hx. destruct (Hs x) as (A1 & A2 & A3 & A4 & A5); [by right|].
      rewrite (lr_ub _ _ Hl), (lr_abs _ _ Hl). split; [done|]. split; [done|]. split; [done|]. split; [done|].
      intros Hm. apply (lr_reg _ _ Hl). auto. }
    case_decide as Hv.
    - destruct (IH w1 V Hw1) as (w2 & V2 & o & -> & Hsub & [B1 B2 B3 B4 B5]).
      { by rewrite (lr_abs _ _ Hl1). } { by apply Hs1. }
      rewrite (lr_abs _ _ Hl1) in *.
      exists w2, V2, o. split; [done|]. split.
      { intros Ho x Hx. apply elem_of_cons in Hx as [-> | Hx]; [by apply B3|auto]. }
      constructor; [done|by eapply lrel_trans|done|done|done].
    - destruct (Hrec w1 u V Hw1) as (w2 & V2 & o2 & -> & Hu2 & [C1 C2 C3 C4 C5]); [auto|done|by rewrite (lr_abs _ _ Hl1)|].
      rewrite (lr_abs _ _ Hl1) in *.
      pose proof (lrel_trans _ _ _ Hl1 C2) as Hl2.
      assert (Hvia : forall x, x ∈ V2 -> x ∉ V -> reachable_via O (abs w) rf root x).
      { intros x Hx Hn. destruct (C4 x Hx Hn) as [_ D2]. eapply via_trans; [|exact D2]. eapply rv_step; [constructor|exact Hr]. }
      destruct o2 as [y|].
      { exists w2, V2, (Some y). split; [done|]. split; [done|].
        constructor; [done|done|done| |done]. intros x Hx Hn. split; [by apply C4|by apply Hvia]. }
      destruct (IH w2 V2 C1) as (w3 & V3 & o3 & -> & Hsub & [B1 B2 B3 B4 B5]).
      { rewrite (lr_abs _ _ Hl2). etrans; [|exact Hf]. apply subseteq_size. clear -C3. set_solver. }
      { by apply Hs1. }
      rewrite (lr_abs _ _ Hl2) in *.
      exists w3, V3, o3. split; [done|]. split.
      { intros Ho x Hx. apply elem_of_cons in Hx as [-> | Hx]; [by apply B3|by apply Hsub]. }
      constructor; [done|by eapply lrel_trans|by etrans| |].
      + intros x Hx Hn. destruct (decide (x ∈ V2)) as [Hx2|Hx2]; [|by apply B4].
        split; [|by apply Hvia]. apply (lr_reg _ _ B2). by apply C4.
      + destruct C5 as [C5 C6]. destruct o3 as [y|].
        * destruct B5 as (D1 & D2 & D3). split; [done|]. split; [|done]. intros HxV. by apply D2, C3.
        * destruct B5 as [B5 B6]. split.
          -- intros x Hx Hn. destruct (decide (x ∈ V2)) as [Hx2|Hx2]; [by apply C5|by apply B5].
          -- intros x y Hx Hn Hxy. destruct (decide (x ∈ V2)) as [Hx2|Hx2]; [|by eapply B6]. apply B3. by eapply C6.
  Qed.

  Lemma w_first_spec fuel : forall w root V,
    winv isW w r -> root ∈ wreg w -> root ∉ V -> (size (reg (abs w) ∖ V) <= fuel)%nat ->
    exists w' V' o, w_first isW O rf crit fuel root V w = Some (w', V', Ok o) /\ root ∈ V' /\ looked root w w' V V' o.
  Proof.
    induction fuel as [|fuel IH]; intros w root V Hw Hroot HV Hf.
    { exfalso. assert (root ∈ reg (abs w)) as H by (apply (elem_abs_reg w r); [apply Hw|by left]).
      assert (root ∈ reg (abs w) ∖ V) as H' by set_solver.
      apply Nat.le_0_r, size_empty_inv in Hf. set_solver. }
    assert (Hreg : root ∈ reg (abs w)) by (apply (elem_abs_reg w r); [apply Hw|by left]).
    cbn [w_first]. destruct (crit root) eqn:Ec.
    { exists w, (V ∪ {[root]}), (Some root). split; [done|]. split; [set_solver|].
      constructor; [done|apply lrel_refl|set_solver| |].
      - intros x Hx Hn. assert (x = root) as -> by set_solver. split; [done|constructor].
      - split; [set_solver|]. done. }
    destruct (w_get__spec isW O w r root [] rf None Hw Hroot) as (w1 & Hq & Hw1 & HX).
    destruct HX as [(? & _)|(_ & _ & found & m & -> & _ & Hwf & Hin & _ & Hl)]; [done|].
    specialize (Hl eq_refl).
    pose proof (quiet_lrel _ _ Hq) as Hl1.
    assert (Hfm : forall u, u ∈ omap id found <-> related O (abs w) rf root u).
    { intros u. rewrite elem_of_list_omap. split.
      - intros (x & Hx & E). simpl in E. subst x. rewrite Hl in Hx.
        apply elem_of_list_fmap in Hx as ([u' rs] & E & Hx). injection E as ->. simpl.
        assert (u' ∈ m.*1) as Hk by (apply elem_of_list_fmap; by exists (u', rs)).
        apply rm_keys_in in Hk as [q Hm]; [|done]. apply Hin in Hm as (M1 & M2 & _). by exists q.
      - intros (q & Hc & Hs). assert (rm_in m u q) as Hm. { apply Hin. split; [done|]. split; [done|]. split; [done|discriminate]. }
        assert (u ∈ m.*1) as Hk by (apply rm_keys_in; eauto).
        exists (Some u). split; [|done]. rewrite Hl. apply elem_of_list_fmap in Hk as ([u' rs] & -> & Hk).
        apply elem_of_list_fmap. by exists (u', rs). }
    set (us := omap id found) in *. set (V1 := V ∪ {[root]}).
    assert (HV1 : (size (reg (abs w) ∖ V1) <= fuel)%nat).
    { assert (size (reg (abs w) ∖ V1) < size (reg (abs w) ∖ V))%nat as H; [|lia].
      apply subset_size. unfold V1. clear -Hreg HV. set_solver. }
    assert (Hfin : forall w' V' o, looked root w w' V1 V' o -> (o = None -> forall u, u ∈ us -> u ∈ V') ->
              looked root w w' V V' o).
    { intros w' V' o [B1 B2 B3 B4 B5] Hus.
      assert (root ∈ V') as HrV by (apply B3; unfold V1; set_solver).
      assert (Hsplit : forall x, x ∈ V' -> x ∉ V -> x = root \/ x ∉ V1).
      { intros x H1 H2. destruct (decide (x = root)); [by left|]. right. unfold V1. set_solver. }
      constructor; [done|done|unfold V1 in B3; clear -B3; set_solver| |].
      - intros x Hx Hn. destruct (Hsplit x Hx Hn) as [-> | Hx1]; [|auto]. split; [by apply (lr_reg _ _ B2)|constructor].
      - destruct o as [y|].
        + destruct B5 as (D1 & D2 & D3). split; [done|]. split; [|done]. unfold V1 in D2. set_solver.
        + destruct B5 as [B5 B6]. split.
          * intros x Hx Hn. destruct (Hsplit x Hx Hn) as [-> | Hx1]; [done|auto].
          * intros x y Hx Hn Hxy. destruct (Hsplit x Hx Hn) as [-> | Hx1]; [|by eapply B6]. apply Hus; [done|]. by apply Hfm. }
    assert (Hroot1 : wroot w1 = Some r) by apply Hw1.
    clearbody us. destruct us as [|u0 us0].
    { exists w1, V1, None. split; [done|]. split; [unfold V1; set_solver|]. apply Hfin.
      - constructor; [done|done|done|done|done].
      - intros _ u Hu. by apply elem_of_nil in Hu. }
    rewrite Hroot1. set (us := u0 :: us0) in *.
    set (w2 := load_prelude w1 us).
    assert (quiet w1 w2) as Hq2. { repeat split; simpl; try done. set_solver. }
    assert (winv isW w2 r) as Hw2 by by eapply winv_quiet.
    pose proof (lrel_trans _ _ _ Hl1 (quiet_lrel _ _ Hq2)) as Hl2.
    destruct (w_first_subs_spec (w_first isW O rf crit fuel) (list_to_set (missing_uids w1 us)) us root fuel IH us w2 V1 Hw2) as (w3 & V3 & o & -> & Hsub & Hse).
    { by rewrite (lr_abs _ _ Hl2). }
    { intros u Hu. rewrite (lr_abs _ _ Hl2). apply Hfm in Hu as Hrel. split; [done|].
      pose proof (related_reg isW O rf r _ _ _ Hw Hrel) as Hur. destruct (abs_reg_facts isW w r u Hw Hur) as [Hu0 Hud].
      split; [done|]. rewrite (lr_ub _ _ Hl2). split; [done|].
      assert (u ∈ (list_to_set (missing_uids w1 us) : gset uid) <-> u ∉ wreg w1 \/ u ∈ expd w1) as Hm.
      { rewrite elem_of_list_to_set. unfold missing_uids. rewrite elem_of_list_filter. tauto. }
      rewrite Hm. change (wreg w2) with (wreg w1). rewrite <- (lr_ub _ _ Hl1). split.
      - intros [Hn|He].
        + split; intros Ha; [by apply (wi_add _ _ _ Hw1) in Ha as [? _]|by apply (wi_upd _ _ _ Hw1) in Ha as [? _]].
        + by apply (wi_exp _ _ _ Hw1) in He as (_ & ? & ?).
      - intros Hn. destruct (decide (u ∈ wreg w1)); [done|tauto]. }
    exists w3, V3, o. split; [done|].
    assert (looked root w w3 V1 V3 o) as Hse'.
    { destruct Hse as [B1 B2 B3 B4 B5]. rewrite (lr_abs _ _ Hl2) in *.
      constructor; [done|by eapply lrel_trans|done|done|done]. }
    split; [apply (lo_mono _ _ _ _ _ _ Hse'); unfold V1; set_solver|]. by apply Hfin.
  Qed.
End proofs.
