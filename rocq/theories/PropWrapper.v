(** Theorems about wrapper sessions (properties C25-C30). *)
From stdpp Require Import base sets list gmap countable.
From Verif Require Import Prelude Cuds CudsProofs PropCuds Wrapper WrapperProofs
  WrapperRefine WrapperOps WrapperOps2 WrapperCommit.

(** * Histories of a session that is the only user of its backend *)

(** What an operation means for a session without backend; loading, expiring,
    refreshing and committing mean nothing there. *)
Definition mem_op (o : wop) : option op :=
  match o with
  | WCreate _ u c attrs => Some (Create u c attrs)
  | WAdd a r bs => Some (Add a r bs)
  | WRemove a uids rf oc => Some (Remove a uids rf oc)
  | WSetAttr u a l => Some (SetAttr u a l)
  | WDelete u => Some (Delete u)
  | _ => None
  end.
Definition mem_step (O : onto) (s : sess) (o : wop) : sess :=
  match mem_op o with Some o' => step O s o' | None => s end.

(** The operations considered: they are applied to objects that are in the
    session, new objects have a uid that neither the session nor the backend
    knows and that has not just been deleted, the root is not deleted, objects
    deleted since the last commit are not asked for by uid, commits do not fail in
    the backend's commit() itself, and the first commit happens before anything is
    removed from a root that had been stored by an earlier session ([root_kept]).
    Nobody else changes the backend. *)
Definition wvalid (isW : cls -> bool) (r : uid) (w : wsess) (o : wop) : Prop :=
  match o with
  | WCreate _ u c _ => u <> 0%N /\ u ∉ reg (abs w) /\ u ∉ bdel (ub w) /\ isW c = false
  | WAdd a _ bs => a ∈ wreg w /\ (forall b, b ∈ bs -> b ∈ wreg w)
  | WRemove a _ _ _ => a ∈ wreg w
  | WSetAttr u _ _ => u ∈ wreg w
  | WDelete u => u ∈ wreg w /\ u <> r
  | WGet a _ _ _ => a ∈ wreg w
  | WLoad us => forall u, u ∈ us -> u <> 0%N /\ u ∉ bdel (ub w)
  | WExpire _ | WExpireAll | WRefresh _ => True
  | WCommit None => root_kept r w
  | WCommit (Some k) => k < length (commit_acts r (wgr w) (ub w))
  | WExternal _ => False
  end.

Definition wrun (isW : cls -> bool) (O : onto) (w : wsess) (os : list wop) : wsess :=
  foldl (wstep isW O) w os.
Fixpoint wvalid_run (isW : cls -> bool) (O : onto) (r : uid) (w : wsess) (os : list wop) : Prop :=
  match os with
  | [] => True
  | o :: os' => wvalid isW r w o /\ wvalid_run isW O r (wstep isW O w o) os'
  end.

(** A session that has just been connected to a backend: the backend's content is
    well formed (also with respect to inverse relationships) and the root's uid is
    new. *)
Record connects (isW : cls -> bool) (O : onto) (d : graph) (r : uid) (w : wsess) : Prop := {
  cn_db : good_db isW d;
  cn_bidir : forall a q b, (a, TLink q b) ∈ d <-> (b, TLink (o_inv O q) a) ∈ d;
  cn_fresh : no_uid r d;
  cn_w : exists order c attrs, r <> 0%N /\ isW c = true /\
           (forall u, u ∈ order <-> u ∈ first_level r d) /\
           w_create isW order (w_empty d) r c attrs = (w, None)
}.

Lemma failed_commit w r k :
  wroot w = Some r -> r ∈ wreg w -> k < length (commit_acts r (wgr w) (ub w)) ->
  w_commit (Some k) w = (set_cur (enter_engine w) (cur w), Some BackendError).
Proof.
  intros Hr Hin Hk. unfold w_commit, in_engine.
  destruct (enter_engine_same w) as (H1 & H2 & H3 & H4 & H5).
  set (w0 := enter_engine w) in *. clearbody w0.
  assert (wroot w0 = Some r) as -> by (unfold wroot; by rewrite H1).
  assert (wreg w0 = wreg w) as -> by (unfold wreg; by rewrite H1).
  assert (wgr w0 = wgr w) as -> by (unfold wgr; by rewrite H1).
  rewrite decide_True by done. rewrite H2. rewrite decide_True by done. done.
Qed.

Section history.
  Context (isW : cls -> bool) (O : onto) (Hivl : involutive O)
          (Hall : forall q, o_sub O q (o_relationship O) = true).

  Lemma wstep_refines w r o :
    winv isW w r -> sess_inv O (abs w) -> wvalid isW r w o ->
    winv isW (wstep isW O w o) r /\ abs (wstep isW O w o) = mem_step O (abs w) o.
  Proof.
    intros Hw Hinv Hv.
    destruct o as [order u c attrs|a q bs|a uids rf oc|u a l|u|a uids rf oc|us|us| |us|[k|]|d];
      simpl in Hv; unfold mem_step; simpl.
    - destruct Hv as (H1 & H2 & H3 & H4).
      by destruct (w_create_spec isW order w r u c attrs) as (w' & -> & ? & ? & _).
    - destruct Hv as [H1 H2].
      destruct (w_add_spec isW O w r a q bs) as (w' & -> & ? & ? & _); done.
    - destruct (w_remove_spec isW O w r a uids rf oc) as (w' & -> & ? & ? & _); done.
    - destruct (w_set_attr_spec isW w r u a l) as (w' & -> & _ & ? & ? & _); done.
    - destruct Hv as [H1 H2].
      destruct (w_delete_spec isW O w r u) as (w' & -> & ? & _ & ? & _); try done.
      intros ? ? ? _. apply Hall.
    - destruct (w_get_spec isW O w r a uids rf oc) as (w' & res & -> & _ & ? & Hl & _); [done..|].
      split; [done|]. apply Hl.
    - destruct (wload_spec isW w r us) as (w' & -> & ? & Hl & _); [done..|]. split; [done|apply Hl].
    - destruct (expire_spec isW w r (list_to_set us)) as (? & ? & _); done.
    - destruct (expire_spec isW w r (wreg w)) as (? & ? & _); done.
    - destruct (refresh_spec isW w r us) as (w' & -> & ? & ? & _); done.
    - rewrite (failed_commit w r k) by (try apply Hw; done). simpl.
      assert (quiet w (set_cur (enter_engine w) (cur w))) as Hq.
      { destruct (enter_engine_same w) as (H1 & H2 & H3 & H4 & H5). 
        
        unfold quiet, set_cur. cbn [core ub db cur expd]. rewrite H1, H2, H3, H4. done. }
      split; [by eapply winv_quiet|]. by apply (quiet_lrel _ _ Hq).
    - destruct (w_commit_spec isW w r) as (w' & -> & ? & ? & _); done.
    - done.
  Qed.

  Lemma wvalid_mem w r o o' :
    winv isW w r -> wvalid isW r w o -> mem_op o = Some o' -> op_valid (abs w) o'.
  Proof.
    intros Hw Hv Ho.
    assert (forall x, x ∈ wreg w -> x ∈ reg (abs w)) as Hsub.
    { intros x Hx. apply (elem_abs_reg w r); [apply Hw|by left]. }
    destruct o; simpl in Hv, Ho; try discriminate; injection Ho as <-; unfold op_valid; simpl.
    all: apply Forall_forall; intros x Hx; simpl in Hx; apply Hsub.
    - done.
    - destruct Hv as [? Hv]. destruct Hx as [->|Hx]; [done|]. apply Hv. by apply elem_of_list_In.
    - by destruct Hx as [->|[]].
    - by destruct Hx as [->|[]].
    - by destruct Hv; destruct Hx as [->|[]].
  Qed.

  Lemma wrun_refines w r os :
    winv isW w r -> sess_inv O (abs w) -> wvalid_run isW O r w os ->
    winv isW (wrun isW O w os) r /\ sess_inv O (abs (wrun isW O w os)) /\
    abs (wrun isW O w os) = foldl (mem_step O) (abs w) os.
  Proof.
    revert w. induction os as [|o os IH]; intros w Hw Hinv Hv; [done|].
    destruct Hv as [Hv Hvs]. destruct (wstep_refines w r o Hw Hinv Hv) as [Hw' Ha'].
    assert (sess_inv O (abs (wstep isW O w o))) as Hinv'.
    { rewrite Ha'. unfold mem_step. destruct (mem_op o) as [o'|] eqn:Eo; [|done].
      apply step_inv; [done|done| |by eapply wvalid_mem]. intros ? ? ? _. apply Hall. }
    destruct (IH _ Hw' Hinv' Hvs) as (H1 & H2 & H3). split; [done|]. split; [done|].
    unfold wrun in *. simpl. by rewrite H3, Ha'.
  Qed.

  Lemma connects_inv d r w :
    connects isW O d r w ->
    winv isW w r /\ sess_inv O (abs w) /\ root_kept r w /\ db w = d /\
    ub w = Bufs {[r]} ∅ ∅ /\ reg (abs w) = {[r]} ∪ subjects (view r d) /\
    (forall p, (0%N, p) ∈ d -> gr (abs w) = view r d) /\
    (forall q v, v <> 0%N -> (0%N, TLink q v) ∈ d -> v ∈ reg (abs w)).
  Proof.
    intros [Hg Hb Hf (order & c & attrs & Hr & Hc & Ho & E)].
    destruct (connect_spec isW d r c attrs Hr Hf Hg Hc order Ho)
      as (w' & E' & Hw & G & R & D & U & K & _).
    assert (w' = w) as -> by congruence. split; [done|].
    assert (forall a q b, (a, TLink q b) ∈ gr (abs w) <-> (a, TLink q b) ∈ view r d) as Hlink.
    { intros a q b. rewrite G. unfold connected_graph. case_decide; [|done].
      rewrite elem_of_union. split; [|tauto]. intros [?|H']; [done|].
      apply elem_new_graph in H'. naive_solver. }
    split.
    { split.
      - intros a q b. unfold connected. rewrite !Hlink, !elem_view_inv by done.
        assert (po_nz (TLink q b) <-> b <> 0%N) as ->.
        { unfold po_nz. split; [intros H' ->; by apply (H' q)|intros H' q' ?; simplify_eq]. }
        assert (po_nz (TLink (o_inv O q) a) <-> a <> 0%N) as ->.
        { unfold po_nz. split; [intros H' ->; by apply (H' (o_inv O q))|intros H' q' ?; simplify_eq]. }
        simpl. rewrite <- (Hb (sub_root r a)). tauto.
      - intros u p Hp. apply (elem_abs w r) in Hp; [|apply Hw].
        apply (elem_abs_reg w r); [apply Hw|]. naive_solver. }
    split; [done|]. split; [done|]. split; [done|]. split; [done|]. split.
    - intros p Hp. rewrite G. unfold connected_graph. rewrite decide_False; [done|].
      intros He. assert ((r, map_po (sub_zero r) p) ∈ triples_of (view r d) r) as Hin;
        [|rewrite He in Hin; by apply not_elem_of_empty in Hin].
      apply elem_triples_of. split; [|done]. apply elem_view. exists 0%N, p.
      split; [done|]. unfold sub_zero. by rewrite decide_True.
    - intros q v Hv Hin. rewrite R, elem_of_union, elem_subjects. right.
      destruct (gd_closed _ _ Hg _ _ _ Hin) as [p Hp]. exists (map_po (sub_zero r) p).
      apply elem_view. exists v, p. split; [done|]. unfold sub_zero. by rewrite decide_False.
  Qed.
End history.

(** w is a state of a session that was connected (with root r) to the backend d
    and has seen some history of operations since. *)
Definition served (isW : cls -> bool) (O : onto) (d : graph) (r : uid) (w : wsess) : Prop :=
  exists w0 os, connects isW O d r w0 /\ wvalid_run isW O r w0 os /\ w = wrun isW O w0 os.

Lemma served_inv isW O d r w :
  involutive O -> (forall q, o_sub O q (o_relationship O) = true) ->
  served isW O d r w -> winv isW w r /\ sess_inv O (abs w).
Proof.
  intros Hivl Hall (w0 & os & Hc & Hv & ->).
  destruct (connects_inv _ _ _ _ _ Hc) as (Hw & Hi & _).
  destruct (wrun_refines isW O Hivl Hall w0 r os) as (H1 & H2 & _); done.
Qed.

(** * C30 loading *)

(** The wrapper session behaves like the in-memory session that holds everything
    the backend and the session know: after any history it holds what the same
    history gives without a backend. *)
Theorem C30_lazy_loading_invisible isW O d r w os :
  involutive O -> (forall q, o_sub O q (o_relationship O) = true) ->
  connects isW O d r w -> wvalid_run isW O r w os ->
  abs (wrun isW O w os) = foldl (mem_step O) (abs w) os.
Proof.
  intros Hivl Hall Hc Hv. destruct (connects_inv _ _ _ _ _ Hc) as (Hw & Hi & _).
  by apply (wrun_refines isW O Hivl Hall w r os).
Qed.

(** The session or the backend knows the object. *)
Definition known (r : uid) (w : wsess) (u : uid) : Prop :=
  u ∈ wreg w \/ exists p, (u, p) ∈ view r (db w).

(** load(u1,...,un) gives, position by position, the object if the session or the
    backend knows it, and None otherwise; nothing visible changes. *)
Theorem C30_load isW O d r w us :
  involutive O -> (forall q, o_sub O q (o_relationship O) = true) ->
  served isW O d r w ->
  (forall u, u ∈ us -> u <> 0%N /\ u ∉ bdel (ub w)) ->
  exists w' l, wload isW w us = (w', Ok l) /\ length l = length us /\
    (forall i u, us !! i = Some u ->
       (known r w u /\ l !! i = Some (Some u) /\ u ∈ wreg w') \/
       (~ known r w u /\ l !! i = Some None)) /\
    abs w' = abs w /\ ub w' = ub w /\ db w' = db w.
Proof.
  intros Hivl Hall Hs Hus. destruct (served_inv _ _ _ _ _ Hivl Hall Hs) as [Hw Hi].
  destruct (wload_spec isW w r us Hw Hus) as (w' & E & Hw' & Hl & Hin & _).
  exists w', (load (abs w) us). split; [done|]. split; [apply map_length|]. split.
  2: { destruct Hl. done. }
  intros i u Hu. assert (u ∈ us) as Huu by by eapply elem_of_list_lookup_2.
  destruct (Hus u Huu) as [_ Hd].
  assert (u ∈ reg (abs w) <-> known r w u) as Hk.
  { rewrite (elem_abs_reg w r) by apply Hw. unfold known. tauto. }
  unfold load. rewrite list_lookup_fmap, Hu. simpl.
  destruct (decide (u ∈ reg (abs w))) as [H|H]; [left|right].
  - split; [by apply Hk|]. split; [done|auto].
  - split; [by rewrite <- Hk|done].
Qed.

Lemma load_next_known isW (M : gset uid) us u d' v :
  u ∉ M -> u ∈ wreg v ->
  in_engine (load_next isW M us u) v = (set_cur (enter_engine v) (cur v), Ok (Some u)) /\
  in_engine (load_next isW M us u) (set_db v d') =
    (set_db (set_cur (enter_engine v) (cur v)) d', Ok (Some u)).
Proof.
  intros HM Hu. unfold in_engine, load_next.
  destruct (enter_engine_same v) as (E1 & E2 & E3 & E4 & E5).
  assert (enter_engine (set_db v d') = set_db (enter_engine v) d') as ->.
  { unfold enter_engine. change (cur (set_db v d')) with (cur v). by case_decide. }
  change (cur (set_db v d')) with (cur v).
  set (v1 := enter_engine v) in *. clearbody v1.
  change (wreg (set_db v1 d')) with (wreg v1).
  assert (u ∈ wreg v1) as Hu1. { unfold wreg. rewrite E1. apply Hu. }
  rewrite !(decide_False (P := u ∈ M)) by done. rewrite !decide_True by done. done.
Qed.

Lemma load_loop_known isW (M : gset uid) us d' todo v :
  (forall u, u ∈ todo -> u ∉ M /\ u ∈ wreg v) ->
  exists v', load_loop isW M us todo v = (v', Ok (map Some todo)) /\ core v' = core v /\
    ub v' = ub v /\ db v' = db v /\ expd v' = expd v /\
    load_loop isW M us todo (set_db v d') = (set_db v' d', Ok (map Some todo)).
Proof.
  revert v. induction todo as [|u todo IH]; intros v Hv; simpl.
  { exists v. done. }
  destruct (Hv u) as [H1 H2]; [left|].
  destruct (load_next_known isW M us u d' v H1 H2) as [-> ->].
  destruct (enter_engine_same v) as (E1 & E2 & E3 & E4 & E5).
  destruct (IH (set_cur (enter_engine v) (cur v))) as (v2 & -> & C2 & U2 & D2 & X2 & ->).
  { intros x Hx. destruct (Hv x) as [? Hx']; [by right|]. split; [done|].
    change (x ∈ reg (core (enter_engine v))). by rewrite E1. }
  exists v2. change (core (set_cur (enter_engine v) (cur v))) with (core (enter_engine v)) in C2.
  change (ub (set_cur (enter_engine v) (cur v))) with (ub (enter_engine v)) in U2.
  change (db (set_cur (enter_engine v) (cur v))) with (db (enter_engine v)) in D2.
  change (expd (set_cur (enter_engine v) (cur v))) with (expd (enter_engine v)) in X2.
  split_and!; try done; congruence.
Qed.

(** Objects that are loaded and not expired are returned without contacting the
    backend, in every state of every session. *)
Theorem C30_loaded_needs_no_backend isW w r us d' :
  wroot w = Some r -> (forall u, u ∈ us -> u ∈ wreg w /\ u ∉ expd w) ->
  exists w', wload isW w us = (w', Ok (map Some us)) /\ core w' = core w /\ ub w' = ub w /\
    db w' = db w /\ expd w' = expd w /\
    wload isW (set_db w d') us = (set_db w' d', Ok (map Some us)).
Proof.
  intros Hr Hus. unfold wload. change (wroot (set_db w d')) with (wroot w). rewrite Hr.
  change (missing_uids (set_db w d') us) with (missing_uids w us).
  change (load_prelude (set_db w d') us) with (set_db (load_prelude w us) d').
  destruct (load_loop_known isW (list_to_set (missing_uids w us)) us d' us (load_prelude w us))
    as (w' & E1 & C & U & D & X & E2).
  { intros u Hu. destruct (Hus u Hu) as [Hr' He]. split; [|done].
    rewrite elem_of_list_to_set. unfold missing_uids. rewrite elem_of_list_filter. tauto. }
  exists w'. split_and!; try done. rewrite X. simpl. apply set_eq. intros x.
  rewrite elem_of_difference, elem_of_intersection, elem_of_list_to_set.
  split; [tauto|]. intros Hx. split; [done|]. intros [Hin _]. by apply Hus in Hin as [_ ?].
Qed.

(** get() answers like the in-memory session (same positions for given uids, the
    same objects otherwise). *)
Theorem C30_get isW O d r w a uids rf oc :
  involutive O -> (forall q, o_sub O q (o_relationship O) = true) ->
  served isW O d r w -> a ∈ wreg w ->
  exists w' res, w_get isW O w a uids rf oc = (w', res) /\
    same_answer uids res (get O (abs w) a uids rf oc) /\ abs w' = abs w.
Proof.
  intros Hivl Hall Hs Ha. destruct (served_inv _ _ _ _ _ Hivl Hall Hs) as [Hw Hi].
  destruct (w_get_spec isW O w r a uids rf oc Hw Ha Hi) as (w' & res & E & Hsame & _ & Hl & _).
  exists w', res. split; [done|]. split; [done|apply Hl].
Qed.

(** add(), remove() and delete raise exactly when they do in the in-memory
    session, and do the same. *)
Theorem C30_writes isW O d r w :
  involutive O -> (forall q, o_sub O q (o_relationship O) = true) ->
  served isW O d r w ->
  (forall a q bs, a ∈ wreg w -> (forall b, b ∈ bs -> b ∈ wreg w) ->
     abs (fst (w_add isW O w a q bs)) = fst (add O (abs w) a q bs) /\
     snd (w_add isW O w a q bs) = snd (add O (abs w) a q bs)) /\
  (forall a uids rf oc, a ∈ wreg w ->
     abs (fst (w_remove isW O w a uids rf oc)) = fst (remove O (abs w) a uids rf oc) /\
     snd (w_remove isW O w a uids rf oc) = snd (remove O (abs w) a uids rf oc)) /\
  (forall u, u ∈ wreg w -> u <> r ->
     abs (fst (w_delete isW O w u)) = fst (delete_cuds_object O (abs w) u) /\
     snd (w_delete isW O w u) = snd (delete_cuds_object O (abs w) u)).
Proof.
  intros Hivl Hall Hs. destruct (served_inv _ _ _ _ _ Hivl Hall Hs) as [Hw Hi].
  split; [|split].
  - intros a q bs Ha Hb. destruct (w_add_spec isW O w r a q bs Hw Ha Hb) as (w' & -> & _ & H & _). done.
  - intros a uids rf oc Ha. destruct (w_remove_spec isW O w r a uids rf oc Hw Ha Hi) as (w' & -> & _ & H & _). done.
  - intros u Hu Hur. destruct (w_delete_spec isW O w r u Hw Hu Hur Hivl Hi) as (w' & -> & _ & H1 & H2 & _).
    { intros ? ? ? _. apply Hall. } done.
Qed.

(** ** A concrete session: class 9 is the wrapper class; the backend holds the
    root (class 9) linked by 1/2 to object 21 (class 3, attribute), which is linked
    to 22 by 5. *)
Definition exW (c : cls) : bool := bool_decide (c = 9%N).
Definition exDb : graph :=
  {[ (0%N, TType 9%N); (0%N, TLink 1%N 21%N); (21%N, TLink 2%N 0%N); (21%N, TType 3%N);
     (21%N, TAttr 30%N (1%N, 1%N)); (21%N, TLink 5%N 22%N); (22%N, TLink 5%N 21%N); (22%N, TType 4%N) ]}.
Definition exW0 : wsess := fst (w_create exW [21%N; 10%N] (w_empty exDb) 10%N 9%N []).
Definition exOps : list wop :=
  [WGet 10%N [] None None;
   WCreate [] 31%N 3%N [(30%N, (7%N, 7%N))]; WAdd 10%N 1%N [31%N]; WCommit None;
   WSetAttr 21%N 30%N (2%N, 2%N); WExpireAll; WGet 21%N [] (Some 5%N) None;
   WDelete 22%N; WCommit (Some 1%nat); WLoad [21%N; 99%N; 10%N]; WRefresh [10%N];
   WRemove 10%N [31%N] None None]%N.
Definition exW1 : wsess := wrun exW exO exW0 exOps.

Lemma graph_all (g : graph) (P : triple -> Prop) :
  Forall P (elements g) -> forall t, t ∈ g -> P t.
Proof. intros H t Ht. rewrite Forall_forall in H. apply H. by apply elem_of_list_In, elem_of_elements. Qed.

Example exDb_good : good_db exW exDb.
Proof.
  assert (elements exDb = elements exDb) as _ by done.
  constructor.
  - intros u p Hin. revert u p Hin.
    assert (forall t, t ∈ exDb -> exists c, (fst t, TType c) ∈ exDb) as H; [|intros u p; apply (H (u, p))].
    refine (graph_all exDb _ _). vm_compute elements.
    repeat constructor; simpl; first [exists 9%N; by vm_compute|exists 3%N; by vm_compute|exists 4%N; by vm_compute].
  - assert (forall t, t ∈ exDb -> forall q v, snd t = TLink q v -> exists p, (v, p) ∈ exDb) as H.
    { refine (graph_all exDb _ _). vm_compute elements.
      repeat constructor; simpl; intros q v ?; simplify_eq;
        first [exists (TType 9%N); by vm_compute|exists (TType 3%N); by vm_compute|exists (TType 4%N); by vm_compute]. }
    intros u q v Hin. by apply (H (u, TLink q v) Hin q v).
  - assert (forall t, t ∈ exDb -> forall c, snd t = TType c -> fst t <> 0%N -> exW c = false) as H.
    { refine (graph_all exDb _ _). vm_compute elements. repeat constructor; simpl; intros c ?; simplify_eq; done. }
    intros u c Hin. by apply (H (u, TType c) Hin c).
Qed.

Example exW0_connects : connects exW exO exDb 10%N exW0.
Proof.
  constructor.
  - apply exDb_good.
  - assert (forall t, t ∈ exDb -> forall q v, snd t = TLink q v -> (v, TLink (o_inv exO q) (fst t)) ∈ exDb) as H.
    { refine (graph_all exDb _ _). vm_compute elements. repeat constructor; simpl; intros q v ?; simplify_eq; by vm_compute. }
    intros a q b. split; intros Hin.
    + by apply (H (a, TLink q b) Hin q b).
    + pose proof (H (b, TLink (o_inv exO q) a) Hin (o_inv exO q) a eq_refl) as Hin'.
      by rewrite exO_involutive in Hin'.
  - assert (forall t, t ∈ exDb -> fst t <> 10%N /\ forall q, snd t <> TLink q 10%N) as H.
    { refine (graph_all exDb _ _). vm_compute elements. repeat constructor; simpl; done. }
    intros x p Hin. by apply (H (x, p)).
  - exists [21%N; 10%N], 9%N, []. split; [done|]. split; [done|]. split.
    2: { unfold exW0. rewrite (surjective_pairing (w_create _ _ _ _ _ _)) at 1. f_equal. }
    intros u. assert (first_level 10%N exDb = {[21%N; 10%N]}) as ->.
    { refine (bool_decide_unpack _ _). vm_compute. exact I. }
    rewrite !elem_of_cons, elem_of_nil, elem_of_union, !elem_of_singleton. tauto.
Qed.

(** A boolean version of [wvalid], only used to evaluate examples. *)
Definition wvalidb (isW : cls -> bool) (r : uid) (w : wsess) (o : wop) : bool :=
  match o with
  | WCreate _ u c _ => bool_decide (u <> 0%N) && bool_decide (u ∉ reg (abs w)) &&
                       bool_decide (u ∉ bdel (ub w)) && negb (isW c)
  | WAdd a _ bs => bool_decide (a ∈ wreg w) && forallb (fun b => bool_decide (b ∈ wreg w)) bs
  | WRemove a _ _ _ => bool_decide (a ∈ wreg w)
  | WSetAttr u _ _ => bool_decide (u ∈ wreg w)
  | WDelete u => bool_decide (u ∈ wreg w) && bool_decide (u <> r)
  | WGet a _ _ _ => bool_decide (a ∈ wreg w)
  | WLoad us => forallb (fun u => bool_decide (u <> 0%N) && bool_decide (u ∉ bdel (ub w))) us
  | WExpire _ | WExpireAll | WRefresh _ => true
  | WCommit None => forallb (fun t : triple => bool_decide (fst t <> r) || bool_decide (t ∈ wgr w))
                      (elements (view r (db w)))
  | WCommit (Some k) => Nat.ltb k (length (commit_acts r (wgr w) (ub w)))
  | WExternal _ => false
  end.
Fixpoint wvalid_runb (isW : cls -> bool) (O : onto) (r : uid) (w : wsess) (os : list wop) : bool :=
  match os with
  | [] => true
  | o :: os' => wvalidb isW r w o && wvalid_runb isW O r (wstep isW O w o) os'
  end.
Lemma wvalidb_ok isW r w o : wvalidb isW r w o = true -> wvalid isW r w o.
Proof.
  destruct o as [order u c attrs|a q bs|a uids rf oc|u a l|u|a uids rf oc|us|us| |us|[k|]|d];
    simpl; rewrite ?andb_true_iff, ?negb_true_iff, ?bool_decide_eq_true; try done.
  - tauto.
  - intros [H1 H2]. split; [done|]. intros b Hb. apply elem_of_list_In in Hb.
    rewrite forallb_forall in H2. apply H2 in Hb. by apply bool_decide_eq_true in Hb.
  - intros Hf b Hb. apply elem_of_list_In in Hb. rewrite forallb_forall in Hf.
    apply Hf in Hb. apply andb_true_iff in Hb as [H1 H2].
    apply bool_decide_eq_true in H1, H2. done.
  - intros Hk. by apply Nat.ltb_lt.
  - intros Hf _ p Hp. apply elem_of_elements, elem_of_list_In in Hp. rewrite forallb_forall in Hf.
    apply Hf in Hp. apply orb_true_iff in Hp as [Hp|Hp]; apply bool_decide_eq_true in Hp; done.
Qed.
Lemma wvalid_runb_ok isW O r w os : wvalid_runb isW O r w os = true -> wvalid_run isW O r w os.
Proof.
  revert w. induction os as [|o os IH]; intros w; simpl; [done|].
  rewrite andb_true_iff. intros [H1 H2]. split; [by apply wvalidb_ok|by apply IH].
Qed.
Lemma pair_eta {A B} (p : A * B) y : snd p = y -> p = (fst p, y).
Proof. destruct p. simpl. by intros ->. Qed.
Lemma by_dec (P : Prop) `{Decision P} : bool_decide P = true -> P.
Proof. apply bool_decide_eq_true. Qed.
Ltac dec := refine (by_dec _ _); vm_compute; reflexivity.

Example exW1_valid : wvalid_run exW exO 10%N exW0 exOps.
Proof. apply wvalid_runb_ok. vm_compute. reflexivity. Qed.
Example exW1_served : served exW exO exDb 10%N exW1.
Proof. exists exW0, exOps. split; [apply exW0_connects|]. split; [apply exW1_valid|done]. Qed.
(** What the session holds at the end: 22 is deleted (not committed, the failed
    commit kept it pending), 31 is unlinked but stored, 21's attribute is changed. *)
Example exW1_state :
  wreg exW1 = {[10%N; 21%N; 31%N]} /\ badd (ub exW1) = ∅ /\
  bupd (ub exW1) = {[10%N; 21%N; 31%N]} /\ bdel (ub exW1) = {[22%N]} /\
  attr_values (wgr exW1) 21%N 30%N = [(2%N, 2%N)] /\ (22%N, TType 4%N) ∈ db exW1 /\
  (31%N, TLink 2%N 0%N) ∈ db exW1 /\ (31%N, TLink 2%N 10%N) ∉ wgr exW1.
Proof. split_and!; dec. Qed.

(** Not covered by [C30_load]: an object deleted since the last commit is still
    returned by load(uid), and is then part of the session again. *)
Theorem C30_load_deleted_refuted :
  exists isW O d r w u, served isW O d r w /\ u ∉ wreg w /\ u ∈ bdel (ub w) /\
    exists w', wload isW w [u] = (w', Ok [Some u]) /\ u ∈ wreg w' /\ u ∈ bdel (ub w').
Proof.
  exists exW, exO, exDb, 10%N, exW1, 22%N. split; [apply exW1_served|].
  split; [dec|]. split; [dec|].
  exists (fst (wload exW exW1 [22%N])). split; [|split; dec].
  apply pair_eta. vm_compute. reflexivity.
Qed.

(** * C25 buffers *)

(** For all histories, including failing operations, failing commits, operations on
    deleted objects' uids and a backend changed by others at any time. *)
Theorem C25_disjoint isW O w :
  whist isW O w ->
  badd (ub w) ## bupd (ub w) /\ badd (ub w) ## bdel (ub w) /\ bupd (ub w) ## bdel (ub w) /\
  badd (ub w) ⊆ wreg w /\ bupd (ub w) ⊆ wreg w.
Proof. intros Hw. destruct (bo_inv _ (whist_ok _ _ _ Hw)). done. Qed.

(** The buffers are net: added objects are unknown to the backend (the root of a
    session connected to an existing backend excepted), updated and deleted ones
    are known; everything that differs from the backend is in a buffer. *)
Theorem C25_net isW O d r w :
  involutive O -> (forall q, o_sub O q (o_relationship O) = true) ->
  served isW O d r w ->
  (forall u, u ∈ badd (ub w) -> u ∈ wreg w /\ (u <> r -> forall p, (u, p) ∉ view r (db w))) /\
  (forall u, u ∈ bupd (ub w) -> u ∈ wreg w /\ exists p, (u, p) ∈ view r (db w)) /\
  (forall u, u ∈ bdel (ub w) -> u ∉ wreg w /\ exists p, (u, p) ∈ view r (db w)) /\
  (forall u, u ∈ wreg w -> triples_of (wgr w) u <> triples_of (view r (db w)) u -> u ∈ buids (ub w)) /\
  badd (ub w) ## bupd (ub w).
Proof.
  intros Hivl Hall Hs. destruct (served_inv _ _ _ _ _ Hivl Hall Hs) as [Hw Hi].
  split; [apply Hw|]. split; [apply Hw|]. split; [apply Hw|]. split.
  - intros u Hu Hne. destruct (decide (u ∈ buids (ub w))) as [|Hn]; [done|]. destruct Hne.
    apply set_eq. intros [x p]. rewrite !elem_triples_of. simpl.
    pose proof (wi_same _ _ _ Hw u Hu Hn p) as Hp. split; intros [H ->]; (split; [|done]); by apply Hp.
  - intros u H1 H2. by apply (wi_dis _ _ _ Hw) in H1.
Qed.
Example C25_example :
  served exW exO exDb 10%N exW1 /\ bupd (ub exW1) = {[10%N; 21%N; 31%N]} /\ bdel (ub exW1) = {[22%N]}.
Proof. split; [apply exW1_served|]. split; dec. Qed.

(** Outside these histories: constructing an object with the uid of an object that
    is already in the session puts it into two buffers. *)
Theorem C25_recreate_refuted :
  exists isW O d r w u c, served isW O d r w /\ c <> 9%N /\
    u ∈ badd (ub (wstep isW O w (WCreate [] u c []))) /\
    u ∈ bupd (ub (wstep isW O w (WCreate [] u c []))).
Proof.
  exists exW, exO, exDb, 10%N, (wrun exW exO exW0 [WCreate [] 31%N 3%N []]), 31%N, 3%N.
  split.
  { exists exW0, [WCreate [] 31%N 3%N []]. split; [apply exW0_connects|]. split; [|done].
    apply wvalid_runb_ok. vm_compute. reflexivity. }
  split; [done|]. split; dec.
Qed.

(** * C26 contexts *)

(** Programs of the backend side: they store, notify and load in the engine
    context, enter and leave contexts, raise and catch. *)
Inductive eprog :=
| EDone
| ERaise
| EStore (u : uid) (ts : graph) (k : eprog)
| EUpdate (u : uid) (k : eprog)
| EDelete (u : uid) (k : eprog)
| EDeleteTriples (u : uid) (k : eprog)
| ELoadIri (u : uid) (k : eprog)
| EGraph (s : sess) (k : eprog)             (* any change of registry and graph *)
| ELoad (us : list uid) (k : eprog)         (* load(), itself entering contexts *)
| EWith (body : eprog) (k : eprog)          (* with EngineContext(session): body *)
| ETry (body : eprog) (k : eprog).          (* try: body except: pass *)

Fixpoint erun (isW : cls -> bool) (p : eprog) (w : wsess) : wsess * bool :=
  match p with
  | EDone => (w, false)
  | ERaise => (w, true)
  | EStore u ts k => match w_store isW w u ts with
                     | (w', Some _) => (w', true) | (w', None) => erun isW k w' end
  | EUpdate u k => match notify_update w u with
                   | (w', Some _) => (w', true) | (w', None) => erun isW k w' end
  | EDelete u k => erun isW k (notify_delete w u)
  | EDeleteTriples u k => match w_delete_triples w u with
                          | (w', Some _) => (w', true) | (w', None) => erun isW k w' end
  | ELoadIri u k => match load_iri isW w u with
                    | (w', Err _) => (w', true) | (w', Ok _) => erun isW k w' end
  | EGraph s k => erun isW k (set_core w s)
  | ELoad us k => match wload isW w us with
                  | (w', Err _) => (w', true) | (w', Ok _) => erun isW k w' end
  | EWith body k => match in_engine (erun isW body) w with
                    | (w', true) => (w', true) | (w', false) => erun isW k w' end
  | ETry body k => erun isW k (fst (erun isW body w))
  end.

Lemma erun_kept isW p w : cur w = ENGINE -> kept w (fst (erun isW p w)).
Proof.
  revert w. induction p as [| |u ts k IH|u k IH|u k IH|u k IH|u k IH|s k IH|us k IH|b IHb k IH|b IHb k IH];
    intros w Hc; simpl; [kd|kd| | | | | | | | |].
  - pose proof (w_store_kept isW w u ts Hc) as Hk. destruct (w_store isW w u ts) as [w' [e|]]; [done|].
    eapply kept_trans; [done|]. apply IH. by eapply kept_cur.
  - pose proof (notify_update_kept w u Hc) as Hk. destruct (notify_update w u) as [w' [e|]]; [done|].
    eapply kept_trans; [done|]. apply IH. by eapply kept_cur.
  - pose proof (notify_delete_kept w u Hc) as Hk.
    eapply kept_trans; [done|]. apply IH. by eapply kept_cur.
  - pose proof (w_delete_triples_kept w u Hc) as Hk. destruct (w_delete_triples w u) as [w' [e|]]; [done|].
    eapply kept_trans; [done|]. apply IH. by eapply kept_cur.
  - pose proof (load_iri_kept isW w u Hc) as Hk. destruct (load_iri isW w u) as [w' [e|e]]; [|done].
    eapply kept_trans; [done|]. apply IH. by eapply kept_cur.
  - eapply kept_trans; [apply set_core_kept|]. by apply IH.
  - pose proof (wload_kept isW w us) as Hk. destruct (wload isW w us) as [w' [e|e]]; [|done].
    eapply kept_trans; [done|]. apply IH. by eapply kept_cur.
  - pose proof (in_engine_kept (erun isW b) w (fun w' => IHb w')) as Hk.
    destruct (in_engine (erun isW b) w) as [w' [|]]; [done|].
    eapply kept_trans; [done|]. apply IH. by eapply kept_cur.
  - specialize (IHb w Hc). eapply kept_trans; [done|]. apply IH. by eapply kept_cur.
Qed.

(** Whatever runs in [with EngineContext(session)], to any nesting depth and
    whether or not it raises: the user's buffers and the current context are
    afterwards what they were before. *)
Theorem C26_engine_context isW p w :
  ub (fst (in_engine (erun isW p) w)) = ub w /\ cur (fst (in_engine (erun isW p) w)) = cur w /\
  db (fst (in_engine (erun isW p) w)) = db w.
Proof.
  pose proof (in_engine_kept (erun isW p) w (fun w' => erun_kept isW p w')) as (H1 & H2 & H3). done.
Qed.
(** Not vacuous: the body stores, updates, loads in a nested context, deletes and
    raises; the engine's buffers record it. *)
Example C26_example :
  let p := EStore 77%N {[ (77%N, TType 3%N) ]} (EWith (ELoad [22%N] (EUpdate 21%N (EDeleteTriples 77%N EDone)))
             (EUpdate 10%N ERaise)) in
  snd (in_engine (erun exW p) exW0) = true /\ ub (fst (in_engine (erun exW p) exW0)) = ub exW0 /\
  22%N ∈ badd (eb (fst (in_engine (erun exW p) exW0))) /\
  10%N ∈ bupd (eb (fst (in_engine (erun exW p) exW0))).
Proof.
  split; [by vm_compute|]. split; [apply C26_engine_context|]. split; dec.
Qed.

(** The API calls that make the backend load something, in every state of every
    session and also if they raise. *)
Theorem C26_loading_calls isW O w us u uids rf oc :
  ub (fst (wload isW w us)) = ub w /\ cur (fst (wload isW w us)) = cur w /\
  ub (fst (refresh isW w us)) = ub w /\ cur (fst (refresh isW w us)) = cur w /\
  ub (fst (notify_read isW w u)) = ub w /\ cur (fst (notify_read isW w u)) = cur w /\
  ub (fst (w_get isW O w u uids rf oc)) = ub w /\ cur (fst (w_get isW O w u uids rf oc)) = cur w /\
  forall fail, cur (fst (w_commit fail w)) = cur w.
Proof.
  destruct (wload_kept isW w us) as (A1 & A2 & _). destruct (refresh_kept isW w us) as (B1 & B2 & _).
  destruct (notify_read_kept isW w u) as (C1 & C2 & _).
  assert (kept w (fst (w_get isW O w u uids rf oc))) as (D1 & D2 & _).
  { unfold w_get, w_get_. pose proof (notify_read_kept isW w u) as Hk.
    assert (forall w1 us', kept w w1 -> kept w (fst (wload isW w1 us'))) as Hl.
    { intros w1 us' H. eapply kept_trans; [done|]. apply wload_kept. }
    assert (forall (r : list (option uid) * rmapping + exn) w1, kept w w1 ->
      kept w (fst (match w1, r with
                   | w1, inr e => (w1, Err e)
                   | w1, inl (us', _) =>
                       match wload isW w1 (omap id us') with
                       | (w2, Err e) => (w2, Err e)
                       | (w2, Ok loaded) =>
                           match uids with
                           | [_] => match load_back us' loaded with
                                    | x :: _ => (w2, Ok (One x)) | [] => (w2, Err IndexError) end
                           | _ => (w2, Ok (Many (load_back us' loaded)))
                           end
                       end
                   end))) as Hg.
    { intros [[x m]|e] w1 Hw1; [|done]. specialize (Hl w1 (omap id x) Hw1).
      destruct (wload isW w1 (omap id x)) as [w2 [l|e]]; [|done].
      destruct uids as [|u0 [|]]; try done. by destruct (load_back x l). }
    destruct uids as [|u0 us0]; destruct oc as [c|]; cycle 2; [simpl; kd|..];
      destruct (notify_read isW w u) as [w1 [e|]]; try exact Hk;
      match goal with |- context [get_ ?a ?b ?c ?d ?e ?f] => destruct (get_ a b c d e f) as [[x m]|e'] end;
      try exact Hk; exact (Hg (inl (x, m)) w1 Hk). }
  split_and!; try done.
  assert (forall A (f : wsess -> wsess * A), cur (fst (in_engine f w)) = cur w) as Hc.
  { intros A f. unfold in_engine. by destruct (f (enter_engine w)). }
  intros fail. apply Hc.
Qed.

(** Connecting loads the first level: the only pending change is the root. *)
Theorem C26_connect isW O d r w : connects isW O d r w -> ub w = Bufs {[r]} ∅ ∅ /\ cur w = USER.
Proof.
  intros Hc. destruct (connects_inv _ _ _ _ _ Hc) as (Hw & _ & _ & _ & H & _). split; [done|apply Hw].
Qed.
Example C26_connect_example : connects exW exO exDb 10%N exW0 /\ wreg exW0 = {[10%N; 21%N]}.
Proof. split; [apply exW0_connects|]. dec. Qed.

(** * C27 expiry *)

(** expire(us): exactly the given objects that are loaded and have no pending
    changes become expired; nothing else changes. *)
Theorem C27_expire w us :
  (forall u, u ∈ expd (fst (expire w us)) <->
     u ∈ wreg w /\ (u ∈ expd w \/ (u ∈ us /\ u ∉ badd (ub w) /\ u ∉ bupd (ub w) /\ u ∉ bdel (ub w)))) /\
  (forall u, u ∈ snd (expire w us) <->
     u ∈ us /\ u ∈ wreg w /\ u ∉ badd (ub w) /\ u ∉ bupd (ub w) /\ u ∉ bdel (ub w)) /\
  core (fst (expire w us)) = core w /\ ub (fst (expire w us)) = ub w /\
  db (fst (expire w us)) = db w /\ cur (fst (expire w us)) = cur w.
Proof.
  split; [|split; [|done]]; intros u; simpl; unfold buids.
  - rewrite elem_of_intersection, elem_of_union, elem_of_difference, !elem_of_union. tauto.
  - rewrite elem_of_intersection, elem_of_difference, !elem_of_union. tauto.
Qed.

(** In every history (also with a backend changed by others) no object with
    pending changes is expired. *)
Theorem C27_pending_never_expired isW O w u :
  whist isW O w -> u ∈ expd w -> u ∉ badd (ub w) /\ u ∉ bupd (ub w).
Proof.
  intros Hw Hu. destruct (bo_inv _ (whist_ok _ _ _ Hw)) as [_ _ _ _ _ H].
  split; intros Hb; apply (H u Hu); set_solver.
Qed.

(** Reading an expired object (every read and every write of the API starts with
    this) fetches it: afterwards it is not expired and has exactly the backend's
    triples, whatever the session and the backend contain. *)
Theorem C27_read_is_fresh isW O w r u :
  whist isW O w -> wroot w = Some r -> u ∈ wreg w -> u ∈ expd w -> u ∉ bdel (ub w) ->
  no_uid r (db w) -> (exists c, (u, TType c) ∈ view r (db w)) ->
  (u <> r -> forall c, (u, TType c) ∈ wgr w \/ (u, TType c) ∈ view r (db w) -> isW c = false) ->
  exists w', notify_read isW w u = (w', None) /\ u ∉ expd w' /\ wreg w' = wreg w /\
    triples_of (wgr w') u = triples_of (view r (db w)) u /\
    (* other objects keep their triples; at most a type known to the backend is added
       to objects that u links to *)
    (forall x p, x <> u -> (x, p) ∈ wgr w -> (x, p) ∈ wgr w') /\
    (forall x p, x <> u -> (x, p) ∈ wgr w' -> (x, p) ∈ wgr w \/
       ((exists c, p = TType c) /\ (x, p) ∈ view r (db w) /\ exists q, (u, TLink q x) ∈ view r (db w))) /\
    ub w' = ub w.
Proof.
  intros Hh Hr Hu He Hd Hno Hty Hwr. pose proof (whist_ok _ _ _ Hh) as Hb.
  destruct (C27_pending_never_expired _ _ _ _ Hh He) as [Ha Hup].
  assert (u <> 0%N) as Hu0 by by eapply buf_ok_nz.
  assert (r <> 0%N) as Hr0. { intros ->. by destruct (nz_root _ (bo_nz _ Hb)). }
  pose proof (notify_read_kept isW w u) as (K1 & K2 & K3).
  assert (u ∉ buids (ub w)) as Hnb by (unfold buids; set_solver).
  unfold notify_read in *. rewrite decide_True in * by done.
  unfold refresh, expire in *. simpl in *.
  match goal with |- context [wload isW ?X _] => set (w0 := X) in * end.
  match goal with |- context [wload isW w0 (elements ?X)] => assert (X = {[u]}) as HX end.
  { apply set_eq. intros x. rewrite elem_of_intersection, elem_of_difference, elem_of_union,
      elem_of_singleton, elem_of_empty. split; [tauto|]. intros ->. tauto. }
  rewrite HX in *. rewrite elements_singleton in *. unfold wload in *.
  change (wroot w0) with (wroot w) in *. rewrite Hr in *.
  assert (u ∈ expd w0) as He0.
  { subst w0. simpl. apply elem_of_intersection. split; [|done]. apply elem_of_union. by left. }
  simpl in *. unfold in_engine in *.
  set (w1 := load_prelude w0 [u]) in *.
  assert (u ∉ expd w1) as He1. { subst w1. simpl. clear. set_solver. }
  destruct (enter_engine_same w1) as (E1 & E2 & E3 & E4 & E5).
  assert (bdel (eb (enter_engine w1)) = ∅) as E6.
  { unfold enter_engine. change (cur w1) with (cur w). rewrite decide_False; [done|].
    rewrite (bo_cur _ Hb). done. }
  set (w2 := enter_engine w1) in *. clearbody w2.
  assert (u ∈ (list_to_set (missing_uids w0 [u]) : gset uid)) as Hm.
  { rewrite elem_of_list_to_set; unfold missing_uids; apply elem_of_list_filter.
    split; [by right|by left]. }
  unfold load_next in *. rewrite decide_True in * by exact Hm. clear Hm.
  unfold load_missing in *.
  assert (wreg w2 = wreg w) as R2 by (unfold wreg; by rewrite E1).
  assert (wgr w2 = wgr w) as G2 by (unfold wgr; by rewrite E1).
  assert (db w2 = db w) as D2 by (by rewrite E4).
  destruct (load_iri_known isW w2 r u) as (w3 & EL & A1 & A2 & A3 & A4 & A5 & A6 & A7 & A8);
    [unfold wroot; by rewrite E1|done|done|done|done|by rewrite D2|by rewrite D2|by rewrite G2, D2|].
  rewrite EL in *. rewrite R2 in *. rewrite (bool_decide_true (u ∈ wreg w)) in * by done.
  rewrite (bool_decide_false (Some u = None)) in * by done.
  simpl in *. rewrite G2, D2 in *.
  match goal with |- context [set_cur ?X _] => set (w4 := X) in * end.
  assert (core w4 = core w3 /\ u ∉ expd w4) as [C4 X4].
  { subst w4. case_match; [|split; [done|]].
    - split; [done|]. unfold expire. simpl. rewrite elem_of_intersection, elem_of_union.
      intros [[Hz|Hz] _].
      + rewrite A3 in Hz. clear -Hz. set_solver.
      + clear -Hz. set_solver.
    - rewrite A3. clear. set_solver. }
  clearbody w4. exists (set_cur w4 (cur w1)). split; [done|]. split; [exact X4|].
  change (wreg (set_cur w4 (cur w1))) with (reg (core w4)).
  change (wgr (set_cur w4 (cur w1))) with (gr (core w4)). rewrite C4.
  change (reg (core w3)) with (wreg w3). change (gr (core w3)) with (wgr w3).
  split. { rewrite A1. clear -Hu. set_solver. }
  split. { apply set_eq. intros [x p]. rewrite !elem_triples_of, A8. simpl. split.
           - intros [[[? [?|?]]|[[? _]|[? _]]] ->]; done.
           - intros [H ->]. tauto. }
  split. { intros x p Hne Hin. rewrite A8. tauto. }
  split. { intros x p Hne Hin. apply A8 in Hin as [[? _]|[[_ ?]|(? & ? & ?)]]; [by left|done|by right]. }
  exact K1.
Qed.
Print Assumptions C30_lazy_loading_invisible.
Print Assumptions C30_load.
Print Assumptions C30_loaded_needs_no_backend.
Print Assumptions C30_get.
Print Assumptions C30_writes.
Print Assumptions C30_load_deleted_refuted.
Print Assumptions C25_disjoint.
Print Assumptions C25_net.
Print Assumptions C25_recreate_refuted.
Print Assumptions C26_engine_context.
Print Assumptions C26_loading_calls.
Print Assumptions C26_connect.
Print Assumptions C27_expire.
Print Assumptions C27_pending_never_expired.
Print Assumptions C27_read_is_fresh.
