(** Search in a wrapper session: osp/core/utils/simple_search.py:4-48 with find_all=True
    and unlimited depth, while the objects are loaded from the backend on the way
    (osp/core/cuds.py:222-244 [iter], 736-759; wrapper_session.py:68-111), and
    osp/core/session/wrapper_session.py:160-170 [_get_full_graph].

    The children of an object come from one session.load generator, which is
    suspended while a child is searched: the list of uids to fetch is fixed when the
    first child is asked for, and each child is produced in an engine context of its
    own.  Simplification: the criterion only looks at the uid. *)
From stdpp Require Import base sets list gmap countable.
From Verif Require Import Prelude Cuds CudsProofs Wrapper WrapperProofs WrapperRefine WrapperOps PropTraverse.

Section find.
  Context (isW : cls -> bool) (O : onto) (rf : option rel) (crit : uid -> bool).

  (** The loop over root.iter(rel=rel), simple_search.py:34-47; [rec] is the
      recursive call, [us] all children, [missing] those to fetch. *)
  Fixpoint w_subs (rec : uid -> gset uid -> wsess -> option (wsess * gset uid * res (list uid)))
    (missing : gset uid) (us subs : list uid) (visited : gset uid) (output : list uid) (w : wsess)
    : option (wsess * gset uid * res (list uid)) :=
    match subs with
    | [] => Some (w, visited, Ok output)
    | u :: subs' =>
        match in_engine (load_next isW missing us u) w with
        | (w1, Err e) => Some (w1, visited, Err e)
        | (w1, Ok None) => Some (w1, visited, Err AttributeError)
        | (w1, Ok (Some x)) =>
            if decide (x ∈ visited) then w_subs rec missing us subs' visited output w1
            else match rec x visited w1 with
                 | None => None
                 | Some (w2, v2, Err e) => Some (w2, v2, Err e)
                 | Some (w2, v2, Ok l) => w_subs rec missing us subs' v2 (output ++ l) w2
                 end
        end
    end.

  (** simple_search.py:4-48 [find_cuds_object]; None = out of fuel. *)
  Fixpoint w_find (fuel : nat) (root : uid) (visited : gset uid) (w : wsess)
    : option (wsess * gset uid * res (list uid)) :=
    match fuel with
    | 0%nat => None
    | S fuel =>
        let visited := visited ∪ {[root]} in
        let output := if crit root then [root] else [] in
        match w_get_ isW O w root [] rf None with
        | (w1, Err e) => Some (w1, visited, Err e)
        | (w1, Ok (found, _)) =>
            let us := omap id found in
            match us, wroot w1 with
            | [], _ => Some (w1, visited, Ok output)
            | _, None => Some (w1, visited, Err RuntimeError)
            | _, Some _ =>
                w_subs (w_find fuel) (list_to_set (missing_uids w1 us)) us us visited output (load_prelude w1 us)
            end
        end
    end.
End find.

(** wrapper_session.py:160-170 [_get_full_graph]; [rel] is cuba.relationship. *)
Definition full_graph (isW : cls -> bool) (O : onto) (fuel : nat) (w : wsess) : option (wsess * res graph) :=
  match wroot w with
  | None => Some (w, Err KeyError)
  | Some r =>
      if decide (r ∈ wreg w) then
        match w_find isW O (Some (o_relationship O)) (fun _ => true) fuel r ∅ w with
        | None => None
        | Some (w', _, Err e) => Some (w', Err e)
        | Some (w', _, Ok _) => Some (w', Ok (wgr w'))
        end
      else Some (w, Err KeyError)
  end.

(** ** Proofs *)
Section proofs.
  Context (isW : cls -> bool) (O : onto) (rf : option rel) (crit : uid -> bool) (r : uid).

  (** What a (partial) search has done: V was visited before, V' after. *)
  Record searched (root : uid) (w w' : wsess) (V V' : gset uid) (l : list uid) : Prop := {
    se_inv : winv isW w' r;
    se_rel : lrel w w';
    se_mono : V ⊆ V';
    se_sub : forall x, x ∈ V' -> x ∉ V -> x ∈ wreg w' /\ reachable_via O (abs w) rf root x;
    se_list : forall x, x ∈ l <-> x ∈ V' /\ x ∉ V /\ crit x = true;
    se_nodup : NoDup l;
    se_closed : forall x y, x ∈ V' -> x ∉ V -> related O (abs w) rf x y -> y ∈ V'
  }.

  Lemma related_reg w a b : winv isW w r -> related O (abs w) rf a b -> b ∈ reg (abs w).
  Proof. intros Hw (q & Hq & _). by eapply connected_reg. Qed.
  Lemma via_trans s a b c : reachable_via O s rf a b -> reachable_via O s rf b c -> reachable_via O s rf a c.
  Proof. intros H. induction 1; [done|]. by eapply rv_step. Qed.

  Lemma w_subs_spec rec missing us root fuel :
    (forall w x V, winv isW w r -> x ∈ wreg w -> x ∉ V -> (size (reg (abs w) ∖ V) <= fuel)%nat ->
       exists w' V' l, rec x V w = Some (w', V', Ok l) /\ x ∈ V' /\ searched x w w' V V' l) ->
    forall subs w V out,
      winv isW w r -> (size (reg (abs w) ∖ V) <= fuel)%nat ->
      (forall u, u ∈ subs -> related O (abs w) rf root u /\ u <> 0%N /\ u ∉ bdel (ub w) /\
         (u ∈ missing -> u ∉ badd (ub w) /\ u ∉ bupd (ub w)) /\ (u ∉ missing -> u ∈ wreg w)) ->
      exists w' V' l, w_subs isW rec missing us subs V out w = Some (w', V', Ok (out ++ l)) /\
        (forall u, u ∈ subs -> u ∈ V') /\ searched root w w' V V' l.
  Proof.
    intros Hrec. induction subs as [|u subs IH]; intros w V out Hw Hf Hs; cbn [w_subs].
    { exists w, V, []. rewrite app_nil_r. split; [done|]. split; [intros u Hu; by apply elem_of_nil in Hu|].
      constructor; [done|apply lrel_refl|done|done| |constructor|done].
      intros x. rewrite elem_of_nil. tauto. }
    destruct (Hs u) as (Hr & Hu0 & Hud & Hum & Hun); [by left|].
    destruct (load_elem_spec isW missing us u w r Hw Hu0 Hud) as (w1 & -> & Hw1 & Hl1 & Hin1 & _);
      [by intros; apply Hum|done|].
    pose proof (related_reg _ _ _ Hw Hr) as Hureg.
    unfold found. rewrite decide_True by done.
    assert (Hs1 : forall w', lrel w w' -> forall u, u ∈ subs -> related O (abs w') rf root u /\ u <> 0%N /\ u ∉ bdel (ub w') /\
         (u ∈ missing -> u ∉ badd (ub w') /\ u ∉ bupd (ub w')) /\ (u ∉ missing -> u ∈ wreg w')).
    { intros w' Hl x Hx. destruct (Hs x) as (A1 & A2 & A3 & A4 & A5); [by right|].
      rewrite (lr_ub _ _ Hl), (lr_abs _ _ Hl). split; [done|]. split; [done|]. split; [done|]. split; [done|].
      intros Hm. apply (lr_reg _ _ Hl). auto. }
    case_decide as Hv.
    - destruct (IH w1 V out Hw1) as (w2 & V2 & l & -> & Hsub & [B1 B2 B3 B4 B5 B6 B7]).
      { by rewrite (lr_abs _ _ Hl1). } { by apply Hs1. }
      rewrite (lr_abs _ _ Hl1) in *.
      exists w2, V2, l. split; [done|]. split.
      { intros x Hx. apply elem_of_cons in Hx as [-> | Hx]; [by apply B3|auto]. }
      constructor; [done|by eapply lrel_trans|done|done|done|done|done].
    - destruct (Hrec w1 u V Hw1) as (w2 & V2 & l2 & -> & Hu2 & [C1 C2 C3 C4 C5 C6 C7]); [auto|done|by rewrite (lr_abs _ _ Hl1)|].
      rewrite (lr_abs _ _ Hl1) in *.
      pose proof (lrel_trans _ _ _ Hl1 C2) as Hl2.
      destruct (IH w2 V2 (out ++ l2) C1) as (w3 & V3 & l3 & -> & Hsub & [B1 B2 B3 B4 B5 B6 B7]).
      { rewrite (lr_abs _ _ Hl2). etrans; [|exact Hf]. apply subseteq_size. clear -C3. set_solver. }
      { by apply Hs1. }
      rewrite (lr_abs _ _ Hl2) in *.
      exists w3, V3, (l2 ++ l3). rewrite app_assoc. split; [done|]. split.
      { intros x Hx. apply elem_of_cons in Hx as [-> | Hx]; [by apply B3|auto]. }
      constructor; [done|by eapply lrel_trans|by etrans| | | |].
      + intros x Hx Hn. destruct (decide (x ∈ V2)) as [Hx2|Hx2]; [|auto].
        destruct (C4 x Hx2 Hn) as [D1 D2]. split; [by apply (lr_reg _ _ B2)|].
        eapply via_trans; [|exact D2]. eapply rv_step; [constructor|exact Hr].
      + intros x. rewrite elem_of_app, C5, B5. split.
        * intros [(D1 & D2 & D3)|(D1 & D2 & D3)]; [split; [by apply B3|done]|].
          split; [done|]. split; [|done]. intros HxV. by apply D2, C3.
        * intros (D1 & D2 & D3). destruct (decide (x ∈ V2)); tauto.
      + apply NoDup_app. split; [done|]. split; [|done]. intros x H1 H2. apply C5 in H1 as (? & _). by apply B5 in H2 as (_ & ? & _).
      + intros x y Hx Hn Hxy. destruct (decide (x ∈ V2)) as [Hx2|Hx2]; [|by eapply B7]. apply B3. by eapply C7.
  Qed.

  Lemma w_find_spec fuel : forall w root V,
    winv isW w r -> root ∈ wreg w -> root ∉ V -> (size (reg (abs w) ∖ V) <= fuel)%nat ->
    exists w' V' l, w_find isW O rf crit fuel root V w = Some (w', V', Ok l) /\ root ∈ V' /\ searched root w w' V V' l.
  Proof.
    induction fuel as [|fuel IH]; intros w root V Hw Hroot HV Hf.
    { exfalso. assert (root ∈ reg (abs w)) as H by (apply (elem_abs_reg w r); [apply Hw|by left]).
      assert (root ∈ reg (abs w) ∖ V) as H' by set_solver.
      apply Nat.le_0_r, size_empty_inv in Hf. set_solver. }
    assert (Hreg : root ∈ reg (abs w)) by (apply (elem_abs_reg w r); [apply Hw|by left]).
    cbn [w_find].
    destruct (w_get__spec isW O w r root [] rf None Hw Hroot) as (w1 & Hq & Hw1 & HX).
    destruct HX as [(? & _)|(_ & _ & found & m & -> & _ & Hwf & Hin & _ & Hl)]; [done|].
    specialize (Hl eq_refl).
    pose proof (quiet_lrel _ _ Hq) as Hl1.
    assert (Hfm : forall u, u ∈ omap id found <-> related O (abs w) rf root u).
    { intros u. rewrite elem_of_list_omap. split.
      - intros (x & Hx & E). simpl in E. subst x. rewrite Hl in Hx.
        apply elem_of_list_fmap in Hx as ([u' rs] & E & Hx). injection E as ->. simpl.
        assert (u' ∈ m.*1) as Hk by (apply elem_of_list_fmap; by exists (u', rs)).
        apply rm_keys_in in Hk as [q Hm]; [|done]. apply Hin in Hm as (M1 & M2 & _). by exists q.
      - intros (q & Hc & Hs). assert (rm_in m u q) as Hm. { apply Hin. split; [done|]. split; [done|]. split; [done|discriminate]. }
        assert (u ∈ m.*1) as Hk by (apply rm_keys_in; eauto).
        exists (Some u). split; [|done]. rewrite Hl. apply elem_of_list_fmap in Hk as ([u' rs] & -> & Hk).
        apply elem_of_list_fmap. by exists (u', rs). }
    set (us := omap id found) in *. set (V1 := V ∪ {[root]}).
    assert (HV1 : (size (reg (abs w) ∖ V1) <= fuel)%nat).
    { assert (size (reg (abs w) ∖ V1) < size (reg (abs w) ∖ V))%nat as H; [|lia].
      apply subset_size. unfold V1. clear -Hreg HV. set_solver. }
    assert (Hfin : forall w' V' l, searched root w w' V1 V' l -> (forall u, u ∈ us -> u ∈ V') ->
              searched root w w' V V' ((if crit root then [root] else []) ++ l)).
    { intros w' V' l [B1 B2 B3 B4 B5 B6 B7] Hus.
      assert (root ∈ V') as HrV by (apply B3; unfold V1; set_solver).
      assert (Hsplit : forall x, x ∈ V' -> x ∉ V -> x = root \/ x ∉ V1).
      { intros x H1 H2. destruct (decide (x = root)); [by left|]. right. unfold V1. set_solver. }
      constructor; [done|done|unfold V1 in B3; clear -B3; set_solver| | | |].
      - intros x Hx Hn. destruct (Hsplit x Hx Hn) as [-> | Hx1]; [|auto]. split; [by apply (lr_reg _ _ B2)|constructor].
      - intros x. rewrite elem_of_app, B5. split.
        + intros [Hx|(D1 & D2 & D3)].
          * destruct (crit root) eqn:Ec; [|by apply elem_of_nil in Hx]. apply elem_of_list_singleton in Hx as ->. done.
          * split; [done|]. split; [|done]. unfold V1 in D2. set_solver.
        + intros (D1 & D2 & D3). destruct (Hsplit x D1 D2) as [-> | Hx1]; [left|right; done].
          rewrite D3. by apply elem_of_list_singleton.
      - apply NoDup_app. split; [destruct (crit root); [apply NoDup_singleton|constructor]|]. split; [|done].
        intros x Hx Hx'. apply B5 in Hx' as (_ & D2 & _).
        destruct (crit root); [|by apply elem_of_nil in Hx]. apply elem_of_list_singleton in Hx as ->. unfold V1 in D2. set_solver.
      - intros x y Hx Hn Hxy. destruct (Hsplit x Hx Hn) as [-> | Hx1]; [|by eapply B7]. apply Hus. by apply Hfm. }
    assert (Hroot1 : wroot w1 = Some r) by apply Hw1.
    clearbody us. destruct us as [|u0 us0].
    { exists w1, V1, (if crit root then [root] else []). split; [done|]. split; [unfold V1; set_solver|].
      rewrite <- (app_nil_r (if crit root then _ else _)). apply Hfin.
      - constructor; [done|done|done|done| |constructor|done]. intros x. rewrite elem_of_nil. tauto.
      - intros u Hu. by apply elem_of_nil in Hu. }
    rewrite Hroot1. set (us := u0 :: us0) in *.
    set (w2 := load_prelude w1 us).
    assert (quiet w1 w2) as Hq2. { repeat split; simpl; try done. set_solver. }
    assert (winv isW w2 r) as Hw2 by by eapply winv_quiet.
    pose proof (lrel_trans _ _ _ Hl1 (quiet_lrel _ _ Hq2)) as Hl2.
    destruct (w_subs_spec (w_find isW O rf crit fuel) (list_to_set (missing_uids w1 us)) us root fuel IH us w2 V1
                (if crit root then [root] else []) Hw2) as (w3 & V3 & l & -> & Hsub & Hse).
    { by rewrite (lr_abs _ _ Hl2). }
    { intros u Hu. rewrite (lr_abs _ _ Hl2). apply Hfm in Hu as Hrel. split; [done|].
      pose proof (related_reg _ _ _ Hw Hrel) as Hur. destruct (abs_reg_facts isW w r u Hw Hur) as [Hu0 Hud].
      split; [done|]. rewrite (lr_ub _ _ Hl2). split; [done|].
      assert (u ∈ (list_to_set (missing_uids w1 us) : gset uid) <-> u ∉ wreg w1 \/ u ∈ expd w1) as Hm.
      { rewrite elem_of_list_to_set. unfold missing_uids. rewrite elem_of_list_filter. tauto. }
      rewrite Hm. change (wreg w2) with (wreg w1). rewrite <- (lr_ub _ _ Hl1). split.
      - intros [Hn|He].
        + split; intros Ha; [by apply (wi_add _ _ _ Hw1) in Ha as [? _]|by apply (wi_upd _ _ _ Hw1) in Ha as [? _]].
        + by apply (wi_exp _ _ _ Hw1) in He as (_ & ? & ?).
      - intros Hn. destruct (decide (u ∈ wreg w1)); [done|tauto]. }
    exists w3, V3, ((if crit root then [root] else []) ++ l). split; [done|].
    assert (searched root w w3 V1 V3 l) as Hse'.
    { destruct Hse as [B1 B2 B3 B4 B5 B6 B7]. rewrite (lr_abs _ _ Hl2) in *.
      constructor; [done|by eapply lrel_trans|done|done|done|done|done]. }
    split; [apply (se_mono _ _ _ _ _ _ Hse'); unfold V1; set_solver|]. by apply Hfin.
  Qed.
End proofs.
