(** Theorems about several users of one database (property C64). *)
From stdpp Require Import base sets list gmap countable.
From Verif Require Import Prelude Cuds CudsProofs PropCuds Wrapper WrapperProofs
  WrapperRefine WrapperOps WrapperOps2 WrapperCommit PropWrapper PropCommit PropBuffers Shared.

(** ** Only commits write to the database, only delete_cuds_object marks as deleted *)
Definition kp (X : gset uid) (w w' : wsess) : Prop :=
  db w' = db w /\ cur w' = cur w /\ bdel (ub w') ⊆ bdel (ub w) ∪ X.
Lemma kp_refl X w : kp X w w. Proof. split; [done|]. split; [done|]. set_solver. Qed.
Lemma kp_trans X w1 w2 w3 : kp X w1 w2 -> kp X w2 w3 -> kp X w1 w3.
Proof. intros (A1 & A2 & A3) (B1 & B2 & B3). split; [congruence|]. split; [congruence|]. set_solver. Qed.
Lemma kp_mono X Y w w' : X ⊆ Y -> kp X w w' -> kp Y w w'.
Proof. intros HXY (A1 & A2 & A3). split; [done|]. split; [done|]. set_solver. Qed.
Lemma kept_kp X w w' : kept w w' -> kp X w w'.
Proof. intros (H1 & H2 & H3). split; [done|]. split; [done|]. rewrite H1. set_solver. Qed.
Local Hint Resolve kp_refl : core.

Lemma set_cur_buf_kp X w b : bdel b ⊆ bdel (cur_buf w) ∪ X -> kp X w (set_cur_buf w b).
Proof. unfold set_cur_buf, cur_buf. intros H. destruct (cur w) eqn:Hc; split; [done|split; [done|done]|done|]. split; [done|]. cbn. set_solver. Qed.
Lemma notify_update_kp X w u : kp X w (fst (notify_update w u)).
Proof. unfold notify_update. repeat case_decide; cbn [fst]; auto. apply set_cur_buf_kp. cbn. set_solver. Qed.
Lemma w_write_kp X isW f w u : kp X w (fst (w_write isW f w u)).
Proof.
  unfold w_write. pose proof (kept_kp X _ _ (notify_read_kept isW w u)) as H.
  destruct (notify_read isW w u) as [w1 [e|]]; [done|]. cbn [fst] in H. case_decide; [|done].
  eapply kp_trans; [exact H|]. pose proof (notify_update_kp X (set_core w1 (f (core w1))) u) as H2. exact H2.
Qed.
Lemma w_add_kp X isW O a q bs : forall w, kp X w (fst (w_add isW O w a q bs)).
Proof.
  induction bs as [|b bs IH]; intros w; cbn [w_add]; [auto|].
  pose proof (kept_kp X _ _ (notify_read_kept isW w a)) as H.
  destruct (notify_read isW w a) as [w0 [e|]]; [done|]. cbn [fst] in H.
  destruct (_ && _); [done|].
  pose proof (w_write_kp X isW (fun s => set_gr s (add_direct (gr s) a q b)) w0 a) as H1. unfold w_link.
  destruct (w_write isW _ w0 a) as [w1 [e|]]; cbn [fst] in *; pose proof (kp_trans _ _ _ _ H H1) as H01; [done|].
  pose proof (w_write_kp X isW (fun s => set_gr s (add_direct (gr s) b (o_inv O q) a)) w1 b) as H2.
  destruct (w_write isW _ w1 b) as [w2 [e|]]; cbn [fst] in *; pose proof (kp_trans _ _ _ _ H01 H2) as H02; [done|].
  specialize (IH w2). destruct (w_add isW O w2 a q bs) as [w3 rv]. cbn [fst] in *. exact (kp_trans _ _ _ _ H02 IH).
Qed.
Lemma w_get__kp X isW O w a uids rf oc : kp X w (fst (w_get_ isW O w a uids rf oc)).
Proof.
  unfold w_get_. pose proof (kept_kp X _ _ (notify_read_kept isW w a)) as H.
  destruct uids; destruct oc; try (cbn; auto; fail); by destruct (notify_read isW w a) as [w1 [e|]].
Qed.
Lemma w_get_kp X isW O w a uids rf oc : kp X w (fst (w_get isW O w a uids rf oc)).
Proof.
  unfold w_get. pose proof (w_get__kp X isW O w a uids rf oc) as H.
  destruct (w_get_ isW O w a uids rf oc) as [w1 [[us m]|e]]; [|done]. cbn [fst] in H.
  pose proof (kept_kp X _ _ (wload_kept isW w1 (omap id us))) as H1.
  destruct (wload isW w1 (omap id us)) as [w2 [l|e]]; cbn [fst] in *; pose proof (kp_trans _ _ _ _ H H1) as H2; [|done].
  destruct uids as [|? [|]]; cbn [fst]; try done. by destruct (load_back us l).
Qed.
Lemma w_remove_rels_kp X isW O a b nb rs : forall w, kp X w (fst (w_remove_rels isW O w a b nb rs)).
Proof.
  induction rs as [|q rs IH]; intros w; cbn [w_remove_rels]; [auto|]. unfold w_unlink.
  pose proof (w_write_kp X isW (fun s => set_gr s (remove_direct (gr s) a q b)) w a) as H1.
  destruct (w_write isW _ w a) as [w1 [e|]]; cbn [fst] in *; [done|].
  destruct nb as [v|]; [|done].
  pose proof (w_write_kp X isW (fun s => set_gr s (remove_direct (gr s) v (o_inv O q) a)) w1 v) as H2.
  destruct (w_write isW _ w1 v) as [w2 [e|]]; cbn [fst] in *; pose proof (kp_trans _ _ _ _ H1 H2) as H3; [done|].
  exact (kp_trans _ _ _ _ H3 (IH w2)).
Qed.
Lemma w_remove_all_kp X isW O missing us a m : forall w, kp X w (fst (w_remove_all isW O missing us w a m)).
Proof.
  induction m as [|[b rs] m IH]; intros w; cbn [w_remove_all]; [auto|].
  pose proof (kept_kp X _ _ (in_engine_kept (load_next isW missing us b) w (fun w' => load_next_kept isW missing us b w'))) as H.
  destruct (in_engine (load_next isW missing us b) w) as [w1 [nb|e]]; [|done]. cbn [fst] in H.
  pose proof (w_remove_rels_kp X isW O a b nb (elements rs) w1) as H1.
  destruct (w_remove_rels isW O w1 a b nb (elements rs)) as [w2 [e|]]; cbn [fst] in *;
    pose proof (kp_trans _ _ _ _ H H1) as H2; [done|]. exact (kp_trans _ _ _ _ H2 (IH w2)).
Qed.
Lemma w_remove_kp X isW O w a uids rf oc : kp X w (fst (w_remove isW O w a uids rf oc)).
Proof.
  unfold w_remove. pose proof (w_get__kp X isW O w a uids rf oc) as H.
  destruct (w_get_ isW O w a uids rf oc) as [w1 [[us m]|e]]; [|done]. cbn [fst] in H.
  destruct m as [|x m]; [done|]. destruct (wroot w1); [|done].
  eapply kp_trans; [exact H|]. eapply kp_trans; [|apply w_remove_all_kp]. apply kept_kp. split; [|split]; done.
Qed.
Lemma notify_delete_kp w u : kp {[u]} w (notify_delete w u).
Proof. unfold notify_delete. repeat case_decide; apply set_cur_buf_kp; cbn; set_solver. Qed.
Lemma w_delete_triples_kp w u : kp {[u]} w (fst (w_delete_triples w u)).
Proof.
  unfold w_delete_triples. destruct (delete_triples (core w) u) as [s' [e|]]; [auto|]. cbn [fst].
  exact (notify_delete_kp (set_core w s') u).
Qed.
Lemma w_delete_kp isW O w u : kp {[u]} w (fst (w_delete isW O w u)).
Proof.
  unfold w_delete. pose proof (w_get_kp {[u]} isW O w u [] (Some (o_relationship O)) None) as H.
  destruct (w_get isW O w u [] (Some (o_relationship O)) None) as [w1 [[x|[|y l]]|e]]; cbn [fst] in H;
    try exact (kp_trans _ _ _ _ H (w_delete_triples_kp w1 u)); [|done].
  pose proof (w_remove_kp {[u]} isW O w1 u [] (Some (o_relationship O)) None) as H1.
  destruct (w_remove isW O w1 u [] (Some (o_relationship O)) None) as [w2 [e|]]; cbn [fst] in *;
    pose proof (kp_trans _ _ _ _ H H1) as H2; [done|].
  exact (kp_trans _ _ _ _ H2 (w_delete_triples_kp w2 u)).
Qed.
Lemma load_iris_kept isW us : forall w, cur w = ENGINE -> kept w (fst (load_iris isW us w)).
Proof.
  induction us as [|u us IH]; intros w Hc; cbn [load_iris]; [apply kept_refl|].
  pose proof (load_iri_kept isW w u Hc) as H. destruct (load_iri isW w u) as [w1 [x|e]]; [|done]. cbn [fst] in H.
  eapply kept_trans; [exact H|]. apply IH. exact (kept_cur _ _ H Hc).
Qed.
Lemma w_store_kp X isW w u ts : kp X w (fst (w_store isW w u ts)).
Proof.
  unfold w_store.
  match goal with |- kp _ _ (fst match ?Y with _ => _ end) => destruct Y end; [auto|]. cbv beta iota zeta. cbn [fst].
  match goal with |- context [set_cur_buf ?Y ?b] => pose proof (set_cur_buf_kp X Y b) as H; set (w1 := set_cur_buf Y b) in * end.
  assert (kp X w w1) as H1. { apply H. case_decide; cbn; set_solver. }
  exact H1.
Qed.
Lemma w_create_kp X isW order w u c attrs : kp X w (fst (w_create isW order w u c attrs)).
Proof.
  unfold w_create. case_decide; [auto|]. pose proof (w_store_kp X isW w u (new_graph u c attrs)) as Hs.
  destruct (w_store isW w u (new_graph u c attrs)) as [w1 [e|]]; [done|]. cbn [fst] in Hs.
  destruct (wroot w); [done|]. eapply kp_trans; [exact Hs|]. apply kept_kp, in_engine_kept.
  intros v Hv. by apply load_iris_kept.
Qed.

(** The operations that write to the database. *)
Definition writes_db (o : wop) : bool :=
  match o with WCommit _ | WExternal _ => true | _ => false end.
Definition deletes (o : wop) : gset uid := match o with WDelete u => {[u]} | _ => ∅ end.
Lemma wstep_kp isW O w o : writes_db o = false -> kp (deletes o) w (wstep isW O w o).
Proof.
  destruct o; intros Ho; try discriminate Ho; cbn [wstep deletes].
  - apply w_create_kp. - apply w_add_kp. - apply w_remove_kp. - apply w_write_kp. - apply w_delete_kp.
  - apply w_get_kp. - apply kept_kp, wload_kept. - apply kept_kp, expire_kept. - apply kept_kp, expire_kept.
  - apply kept_kp, refresh_kept.
Qed.

(** What a commit leaves behind: the buffers either stay or are emptied. *)
Lemma w_commit_cases fail w :
  (ub (fst (w_commit fail w)) = ub w \/ ub (fst (w_commit fail w)) = no_bufs) /\
  (db (fst (w_commit fail w)) = db w \/
   exists r, fail = None /\ wroot w = Some r /\ r ∈ wreg w /\ db (fst (w_commit fail w)) = committed r w).
Proof.
  unfold w_commit, in_engine. destruct (enter_engine_same w) as (E1 & E2 & E3 & E4 & E5).
  set (w0 := enter_engine w) in *. clearbody w0.
  assert (wroot w0 = wroot w) as -> by (unfold wroot; by rewrite E1).
  destruct (wroot w) as [r|] eqn:Er; [|cbn; tauto].
  assert (wreg w0 = wreg w) as -> by (unfold wreg; by rewrite E1).
  case_decide as Hr; [|cbn; tauto].
  destruct fail as [k|].
  { case_decide; cbn; tauto. }
  cbn. split; [tauto|]. right. exists r. split_and!; try done.
  unfold committed, wgr. by rewrite E1, E2, E4.
Qed.
Lemma whist_bdel isW O w : whist isW O w -> 0%N ∉ bdel (ub w).
Proof.
  induction 1 as [d|w o Hw IH Hok]; [set_solver|].
  destruct (writes_db o) eqn:Ho.
  - destruct o; try discriminate Ho; [|done]. cbn [wstep].
    destruct (w_commit_cases fail w) as [[E|E] _]; rewrite E; [done|]. set_solver.
  - destruct (wstep_kp isW O w o Ho) as (_ & _ & H). intros H0. apply H in H0. apply elem_of_union in H0 as [?|H0]; [done|].
    destruct o; cbn in H0; try set_solver. apply elem_of_singleton in H0. cbn in Hok.
    apply (buf_ok_nz _ _ (whist_ok _ _ _ Hw)) in Hok. congruence.
Qed.

(** C28 for every history of one session, whatever other users did to the backend. *)
Theorem C28_commit_any_history isW O r w :
  whist isW O w -> wroot w = Some r -> r ∈ wreg w -> no_uid r (db w) ->
  exists w', w_commit None w = (w', None) /\
    (forall u, u ∈ bupd (ub w) -> triples_of (view r (db w')) u = triples_of (wgr w) u) /\
    (forall u, u ∈ badd (ub w) ->
       triples_of (view r (db w')) u = triples_of (view r (db w)) u ∪ triples_of (wgr w) u) /\
    (forall u, u ∈ bdel (ub w) -> triples_of (view r (db w')) u = ∅) /\
    (forall u, u ∉ badd (ub w) -> u ∉ bupd (ub w) -> u ∉ bdel (ub w) ->
       triples_of (view r (db w')) u = triples_of (view r (db w)) u) /\
    ub w' = no_bufs /\ core w' = core w /\ cur w' = cur w.
Proof.
  intros Hh Hr Hreg Hn. exact (PropCommit.C28_commit_any isW O r w Hh Hr Hreg Hn (whist_bdel isW O w Hh)).
Qed.
Print Assumptions C28_commit_any_history.

(** ** The specification *)

(** Under which uid a session stores its object u: its root is stored as 0. *)
Definition stored_as (w : wsess) (u : uid) : uid := if decide (wroot w = Some u) then 0%N else u.
(** Session w has uncommitted changes (new, changed or deleted) of the object that
    the database has under x. *)
Definition pends (w : wsess) (x : uid) : Prop :=
  exists u, (u ∈ badd (ub w) \/ u ∈ bupd (ub w) \/ u ∈ bdel (ub w)) /\ stored_as w u = x.
(** What users may do: only what wop_ok allows; the database is changed by commits
    of the sessions only. *)
Definition mok (s : shared) (a : nat * wop) : Prop :=
  wop_ok (sess_of s (fst a)) (snd a) /\ forall d, snd a <> WExternal d.
Inductive mhist (isW : cls -> bool) (O : onto) : shared -> Prop :=
| mh_init d : mhist isW O (sh_init d)
| mh_step s a : mhist isW O s -> mok s a -> mhist isW O (mstep isW O s a).
(** A schedule in which no commit writes the object stored under x. *)
Fixpoint spares (isW : cls -> bool) (O : onto) (x : uid) (s : shared) (l : list (nat * wop)) : Prop :=
  match l with
  | [] => True
  | (i, o) :: l' => mok s (i, o) /\ (forall f, o = WCommit f -> ~ pends (sess_of s i) x) /\
                    spares isW O x (mstep isW O s (i, o)) l'
  end.

Lemma set_db_id w : set_db w (db w) = w. Proof. by destruct w. Qed.
Lemma mhist_whist isW O s : mhist isW O s -> forall i, whist isW O (sess_of s i).
Proof.
  induction 1 as [d|s [j o] Hs IH [Hok Hx]]; intros i; [exact (wh_init isW O d)|].
  unfold sess_of, mstep. cbn [fst snd]. case_decide as Hij.
  - subst j. rewrite set_db_id. apply wh_step; [apply IH|exact Hok].
  - pose proof (wh_step isW O (sess_of s i) (WExternal (db (wstep isW O (sess_of s j) o))) (IH i) Logic.I) as H.
    exact H.
Qed.
Lemma mhist_run isW O s x l : mhist isW O s -> spares isW O x s l -> mhist isW O (mrun isW O s l).
Proof.
  revert s. induction l as [|[i o] l IH]; intros s Hs Hl; [done|]. destruct Hl as (H1 & H2 & H3).
  apply (IH (mstep isW O s (i, o))); [|done]. by apply mh_step.
Qed.

(** ** C64 *)

(** Nothing but a commit touches the database, and no operation touches another
    user's session: her objects, uncommitted changes and expired objects. *)
Theorem C64_isolation isW O s i o :
  (forall d, o <> WExternal d) ->
  (forall j, j <> i -> fst (mstep isW O s (i, o)) j = fst s j) /\
  ((forall f, o <> WCommit f) -> snd (mstep isW O s (i, o)) = snd s).
Proof.
  intros Hx. split.
  - intros j Hj. unfold mstep. cbn [fst snd]. by rewrite decide_False.
  - intros Hc. unfold mstep. cbn [fst snd]. destruct (wstep_kp isW O (sess_of s i) o) as (H & _).
    { destruct o; try done; [by destruct (Hc fail)|by destruct (Hx d)]. }
    exact H.
Qed.

Lemma acts_frame acts x : forall d,
  Forall (fun a => match a with DAdd ts => forall t, t ∈ ts -> fst t <> x | DRemove u => u <> x end) acts ->
  triples_of (foldl run_act d acts) x = triples_of d x.
Proof.
  induction acts as [|a acts IH]; intros d Hall; [done|]. apply stdpp.list.Forall_cons in Hall as [Ha Hall].
  cbn [foldl]. rewrite IH by done. apply set_eq. intros t. rewrite !elem_triples_of.
  destruct a as [ts|u]; cbn [run_act].
  - rewrite elem_of_union. split; [|tauto]. intros [[?|Ht] E]; [done|]. by destruct (Ha t Ht).
  - rewrite elem_of_filter. split; [tauto|]. intros [? E]. split; [|done]. split; [|done]. congruence.
Qed.
Lemma out_triples_subj r g u t : t ∈ out_triples r g u -> fst t = sub_root r u.
Proof.
  intros Ht. unfold out_triples in Ht. apply elem_map_graph in Ht as ([y p'] & Hin & ->).
  apply elem_triples_of in Hin as [_ Hy]. simpl in *. by subst.
Qed.
Lemma stored_sub w r u : wroot w = Some r -> stored_as w u = sub_root r u.
Proof. intros Hr. unfold stored_as, sub_root. rewrite Hr. destruct (decide (u = r)) as [->|Hn]; case_decide; congruence. Qed.
Lemma commit_frame fail w x : ~ pends w x -> triples_of (db (fst (w_commit fail w))) x = triples_of (db w) x.
Proof.
  intros Hp. destruct (w_commit_cases fail w) as [_ [E|(r & _ & Hr & _ & E)]]; rewrite E; [done|].
  unfold committed. apply acts_frame. unfold commit_acts.
  assert (forall u, u ∈ badd (ub w) \/ u ∈ bupd (ub w) \/ u ∈ bdel (ub w) -> sub_root r u <> x) as Hn.
  { intros u Hu Hx. apply Hp. exists u. split; [done|]. by rewrite (stored_sub w r). }
  apply stdpp.list.Forall_forall. intros a Ha. rewrite !elem_of_app in Ha. destruct Ha as [Ha|[Ha|Ha]].
  - apply elem_of_list_fmap in Ha as (u & -> & Hu). apply elem_of_elements in Hu. intros t Ht.
    apply out_triples_subj in Ht. rewrite Ht. auto.
  - apply elem_of_list_join in Ha as (l & Ha & Hl). apply elem_of_list_fmap in Hl as (u & -> & Hu). apply elem_of_elements in Hu.
    apply elem_of_cons in Ha as [-> | Ha]; [auto|]. apply elem_of_list_singleton in Ha as ->. intros t Ht.
    apply out_triples_subj in Ht. rewrite Ht. auto.
  - apply elem_of_list_fmap in Ha as (u & -> & Hu). apply elem_of_elements in Hu. auto.
Qed.

(** An object's stored triples stay as they are through every schedule in which no
    commit was made by a session with uncommitted changes of it. *)
Theorem C64_untouched isW O s x l :
  spares isW O x s l -> triples_of (snd (mrun isW O s l)) x = triples_of (snd s) x.
Proof.
  revert s. induction l as [|[i o] l IH]; intros s Hl; [done|]. destruct Hl as ((Hok & Hx) & Hc & Hl).
  transitivity (triples_of (snd (mstep isW O s (i, o))) x); [by apply IH|].
  destruct (writes_db o) eqn:Ho.
  - destruct o; try discriminate Ho; [|by destruct (Hx d)].
    exact (commit_frame fail (sess_of s i) x (Hc fail eq_refl)).
  - destruct (C64_isolation isW O s i o) as [_ H].
    + intros d ->. done.
    + rewrite H; [done|]. intros f ->. done.
Qed.

(** How session w stores a link to its root. *)
Definition stored_po (w : wsess) (p : po) : po :=
  match p with TLink q v => TLink q (stored_as w v) | _ => p end.
Lemma stored_po_sub w r p : wroot w = Some r -> stored_po w p = map_po (sub_root r) p.
Proof. intros Hr. destruct p; cbn; [|done..]. by rewrite (stored_sub w r). Qed.
Lemma elem_out w r u x p : wroot w = Some r ->
  (x, p) ∈ out_triples r (wgr w) u <-> x = stored_as w u /\ exists p0, (u, p0) ∈ wgr w /\ p = stored_po w p0.
Proof.
  intros Hr. unfold out_triples. rewrite elem_map_graph, (stored_sub w r) by done. split.
  - intros ([y p'] & Hin & Heq). apply elem_triples_of in Hin as [Hin Hy]. cbn [fst] in Hy. subst y.
    injection Heq as -> ->. split; [done|]. exists p'. split; [done|]. by rewrite (stored_po_sub w r).
  - intros [-> (p0 & Hin & ->)]. exists (u, p0). split; [by apply elem_triples_of|].
    unfold map_triple. cbn [fst snd]. by rewrite (stored_po_sub w r).
Qed.

Lemma elem_committed_raw isW O w r x p : whist isW O w -> wroot w = Some r ->
  (x, p) ∈ committed r w <->
  (forall u, u ∈ bdel (ub w) -> stored_as w u <> x) /\
  (((forall u, u ∈ bupd (ub w) -> stored_as w u <> x) /\
     ((x, p) ∈ db w \/ exists u p0, u ∈ badd (ub w) /\ stored_as w u = x /\ (u, p0) ∈ wgr w /\ p = stored_po w p0)) \/
   exists u p0, u ∈ bupd (ub w) /\ stored_as w u = x /\ (u, p0) ∈ wgr w /\ p = stored_po w p0).
Proof.
  intros Hh Hr. pose proof (whist_ok _ _ _ Hh) as Hb. pose proof (whist_bdel _ _ _ Hh) as Hd0.
  destruct (bo_nz _ Hb) as [N1 N2 N3]. destruct (bo_inv _ Hb) as [B1 B2 B3 B4 B5 B6].
  unfold committed, commit_acts. rewrite !foldl_app, acts_remove, acts_update, acts_add.
  2: apply NoDup_elements.
  2: { intros u u' H1 H2. rewrite elem_of_elements in H1, H2. apply sub_root_inj; intros ->; [by apply B2 in H1|by apply B2 in H2]. }
  2: intros u t; apply out_triples_subj.
  setoid_rewrite elem_of_elements. cbn [fst].
  assert (forall S : gset uid, (forall u, u ∈ S -> x <> sub_root r u) <-> (forall u, u ∈ S -> stored_as w u <> x)) as Hq.
  { intros S. split; intros H u Hu; specialize (H u Hu); rewrite (stored_sub w r) in *; congruence. }
  assert (forall S : gset uid, (exists u, u ∈ S /\ (x, p) ∈ out_triples r (wgr w) u) <->
    (exists u p0, u ∈ S /\ stored_as w u = x /\ (u, p0) ∈ wgr w /\ p = stored_po w p0)) as He.
  { intros S. split.
    - intros (u & Hu & Hin). apply (elem_out w r) in Hin as [-> (p0 & Hin & ->)]; [|done]. by exists u, p0.
    - intros (u & p0 & Hu & <- & Hin & ->). exists u. split; [done|]. apply (elem_out w r); [done|]. split; [done|]. by exists p0. }
  rewrite !Hq, !He. tauto.
Qed.

Lemma stored_as_inj w u v : wroot w <> Some 0%N -> u <> 0%N -> v <> 0%N -> stored_as w u = stored_as w v -> u = v.
Proof. unfold stored_as. intros H0 Hu Hv. repeat case_decide; congruence. Qed.

(** What a commit of session i does to the database, in every reachable state of
    all sessions - so whatever the others have committed in the meantime.  Changed
    objects are stored exactly as session i has them, deleted ones are gone, new
    ones are added to what is stored under their uid, all others are left alone. *)
Theorem C64_commit isW O s i r :
  mhist isW O s -> wroot (fst s i) = Some r -> r ∈ wreg (fst s i) ->
  let w := sess_of s i in
  let s' := mstep isW O s (i, WCommit None) in
  snd (w_commit None w) = None /\ ub (fst s' i) = no_bufs /\ core (fst s' i) = core (fst s i) /\
  (forall u p, u ∈ bupd (ub w) ->
     ((stored_as w u, p) ∈ snd s' <-> exists p0, (u, p0) ∈ wgr w /\ p = stored_po w p0)) /\
  (forall u p, u ∈ badd (ub w) ->
     ((stored_as w u, p) ∈ snd s' <->
        (stored_as w u, p) ∈ snd s \/ exists p0, (u, p0) ∈ wgr w /\ p = stored_po w p0)) /\
  (forall u p, u ∈ bdel (ub w) -> (stored_as w u, p) ∉ snd s') /\
  (forall x p, ~ pends w x -> ((x, p) ∈ snd s' <-> (x, p) ∈ snd s)).
Proof.
  intros Hs Hr Hreg w s'. pose proof (mhist_whist _ _ _ Hs i) as Hh. fold w in Hh.
  pose proof (whist_ok _ _ _ Hh) as Hb. pose proof (whist_bdel _ _ _ Hh) as Hd0.
  destruct (bo_nz _ Hb) as [N1 N2 N3]. destruct (bo_inv _ Hb) as [B1 B2 B3 B4 B5 B6].
  assert (wroot w = Some r) as Hrw by done. assert (r ∈ wreg w) as Hrr by done.
  assert (snd s' = committed r w /\ snd (w_commit None w) = None /\ ub (fst s' i) = no_bufs /\ core (fst s' i) = core w) as (Ed & E1 & E2 & E3).
  { subst s'. unfold mstep. cbn [fst snd]. rewrite decide_True by done. fold w. cbn [wstep].
    unfold w_commit, in_engine. destruct (enter_engine_same w) as (E1 & E2 & E3 & E4 & E5).
    set (w0 := enter_engine w) in *. clearbody w0.
    assert (wroot w0 = Some r) as -> by (unfold wroot; by rewrite E1).
    assert (wreg w0 = wreg w) as -> by (unfold wreg; by rewrite E1).
    rewrite decide_True by done. cbn [fst snd]. split_and!; [|done|done|exact E1].
    unfold committed, wgr. rewrite <- E1, <- E2, <- E4. done. }
  rewrite Ed. pose proof (fun x p => elem_committed_raw isW O w r x p Hh Hrw) as Hel.
  assert (forall u, u ∈ badd (ub w) -> u <> 0%N) as Ha0 by (intros u Hu ->; by apply B1 in Hu).
  assert (forall u, u ∈ bupd (ub w) -> u <> 0%N) as Hu0 by (intros u Hu ->; by apply B2 in Hu).
  assert (forall u, u ∈ bdel (ub w) -> u <> 0%N) as Hd0' by (intros u Hu ->; done).
  split_and!; [done|done|done| | | |].
  - intros u p Hu. rewrite Hel. split.
    + intros (_ & [[Hn _]|(v & p0 & Hv & E & Hin & ->)]); [by destruct (Hn u)|].
      apply stored_as_inj in E as ->; eauto.
    + intros (p0 & Hin & ->). split; [|right; by exists u, p0].
      intros v Hv E. apply stored_as_inj in E as ->; [|by eauto ..]. by apply (B5 u).
  - intros u p Hu. rewrite Hel. split.
    + intros (_ & [[_ [?|(v & p0 & Hv & E & Hin & ->)]]|(v & p0 & Hv & E & Hin & ->)]); [by left| |].
      * apply stored_as_inj in E as ->; eauto.
      * apply stored_as_inj in E as ->; eauto.
    + intros H. split.
      * intros v Hv E. apply stored_as_inj in E as ->; [|by eauto ..]. by apply (B4 u).
      * left. split.
        -- intros v Hv E. apply stored_as_inj in E as ->; [|by eauto ..]. by apply (B3 u).
        -- destruct H as [H|(p0 & Hin & ->)]; [by left|]. right. by exists u, p0.
  - intros u p Hu Hin. apply Hel in Hin as [Hn _]. by apply (Hn u).
  - intros x p Hn. rewrite Hel. split.
    + intros (_ & [[_ [?|(v & p0 & Hv & E & Hin & ->)]]|(v & p0 & Hv & E & Hin & ->)]); [done| |]; exfalso; apply Hn; exists v; tauto.
    + intros H. split; [|left; split; [|by left]]; intros u Hu E; apply Hn; exists u; tauto.
Qed.

(** How session v sees a stored link to 0: as a link to its own root. *)
Definition seen_po (v : wsess) (p : po) : po :=
  match p, wroot v with TLink q 0%N, Some r => TLink q r | _, _ => p end.

(** No lost updates: what session i commits of an object u (changed, not its root)
    is what every other session j reads when it next reads its expired copy of u,
    after any schedule in which nobody else committed changes of u. *)
Theorem C64_no_lost_update isW O s i u l j r :
  mhist isW O s ->
  wroot (fst s i) <> None -> (forall r', wroot (fst s i) = Some r' -> r' ∈ wreg (fst s i) /\ r' <> u) ->
  u ∈ bupd (ub (fst s i)) -> spares isW O u (mstep isW O s (i, WCommit None)) l ->
  let s' := mrun isW O (mstep isW O s (i, WCommit None)) l in
  let v := sess_of s' j in
  wroot v = Some r -> u <> r -> u ∈ wreg v -> u ∈ expd v -> u ∉ bdel (ub v) -> no_uid r (snd s') ->
  (exists c, (u, TType c) ∈ wgr (fst s i)) ->
  (forall c, (u, TType c) ∈ wgr v \/ (u, TType c) ∈ wgr (fst s i) -> isW c = false) ->
  exists v', notify_read isW v u = (v', None) /\ u ∉ expd v' /\ ub v' = ub v /\
    forall p, (u, p) ∈ wgr v' <->
      exists p0, (u, p0) ∈ wgr (fst s i) /\ p = seen_po v (stored_po (sess_of s i) p0).
Proof.
  intros Hs Hri Hreg Hu Hl s' v Hr Hur Huv Hex Hdel Hno [c0 Hc0] Hw.
  destruct (wroot (fst s i)) as [ri|] eqn:Eri; [|done]. destruct (Hreg ri eq_refl) as [Hreg1 Hriu].
  assert (mhist isW O (mstep isW O s (i, WCommit None))) as Hs1 by (apply mh_step; [done|split; [done|intros d; discriminate]]).
  destruct (C64_commit isW O s i ri Hs Eri Hreg1) as (_ & _ & _ & Hup & _).
  set (w := sess_of s i) in *.
  assert (stored_as w u = u) as Esu.
  { unfold stored_as. change (wroot w) with (wroot (fst s i)). rewrite Eri. case_decide; congruence. }
  assert (forall p, (u, p) ∈ snd s' <-> exists p0, (u, p0) ∈ wgr w /\ p = stored_po w p0) as Hdb.
  { intros p. rewrite <- Hup by done. rewrite Esu. pose proof (C64_untouched isW O _ u l Hl) as E.
    fold s' in E. assert ((u, p) ∈ triples_of (snd s') u <-> (u, p) ∈ triples_of (snd (mstep isW O s (i, WCommit None))) u) as H by by rewrite E.
    rewrite !elem_triples_of in H. cbn [fst] in H. tauto. }
  assert (mhist isW O s') as Hs' by by eapply mhist_run.
  pose proof (mhist_whist _ _ _ Hs' j) as Hh. fold v in Hh.
  assert (r <> 0%N) as Hr0. { intros ->. by destruct (nz_root _ (bo_nz _ (whist_ok _ _ _ Hh))). }
  assert (u <> 0%N) as Hu0 by exact (buf_ok_nz _ _ (whist_ok _ _ _ Hh) Huv).
  assert (forall p, (u, p) ∈ view r (snd s') <-> exists p1, (u, p1) ∈ snd s' /\ p = seen_po v p1) as Hview.
  { intros p. rewrite elem_view. unfold seen_po. rewrite Hr.
    assert (forall p1, map_po (sub_zero r) p1 = match p1 with TLink q 0%N => TLink q r | _ => p1 end) as Hm.
    { intros [q [|y]| |]; done. }
    split.
    - intros (x & p1 & Hin & Ex & ->). exists p1. split; [|apply Hm].
      unfold sub_zero in Ex. case_decide; congruence.
    - intros (p1 & Hin & ->). exists u, p1. split; [done|]. split; [|symmetry; apply Hm].
      unfold sub_zero. by rewrite decide_False. }
  destruct (C27_read_is_fresh isW O v r u Hh Hr Huv Hex Hdel) as (v' & E & Hne & _ & Ht & _ & _ & Hub); [done| | |].
  { exists c0. apply Hview. exists (TType c0). split; [|done]. apply Hdb. by exists (TType c0). }
  { intros _ c [Hc|Hc]; [by apply Hw; left|]. apply Hw. right. apply Hview in Hc as (p1 & Hin & E1).
    apply Hdb in Hin as (p0 & Hin & ->). destruct p0 as [q y|c'|a' l']; cbn in E1.
    - unfold seen_po in E1. destruct (stored_as w y); destruct (wroot v); discriminate E1.
    - injection E1 as ->. done.
    - discriminate E1. }
  exists v'. split; [done|]. split; [done|]. split; [done|]. intros p.
  assert ((u, p) ∈ triples_of (wgr v') u <-> (u, p) ∈ triples_of (view r (db v)) u) as H by by rewrite Ht.
  rewrite !elem_triples_of in H. cbn [fst] in H. change (db v) with (snd s') in H. rewrite Hview in H.
  split.
  - intros Hin. destruct (proj1 H (conj Hin eq_refl)) as [(p1 & H1 & ->) _]. apply Hdb in H1 as (p0 & H0 & ->).
    by exists p0.
  - intros (p0 & H0 & ->). apply H. split; [|done]. exists (stored_po w p0). split; [|done]. apply Hdb. by exists p0.
Qed.

(** ** Concrete schedules *)
Fixpoint mokb_run (isW : cls -> bool) (O : onto) (s : shared) (l : list (nat * wop)) : bool :=
  match l with
  | [] => true
  | (i, o) :: l' => wop_okb (sess_of s i) o && match o with WExternal _ => false | _ => true end &&
                    mokb_run isW O (mstep isW O s (i, o)) l'
  end.
Lemma mokb_hist isW O l : forall s, mhist isW O s -> mokb_run isW O s l = true -> mhist isW O (mrun isW O s l).
Proof.
  induction l as [|[i o] l IH]; intros s Hs Hl; [done|]. cbn in Hl. apply andb_true_iff in Hl as [Hl Hl2].
  apply andb_true_iff in Hl as [Hl Hl1]. apply (IH (mstep isW O s (i, o))); [|done]. apply mh_step; [done|].
  split; [by apply wop_okb_ok|]. intros d. cbn. intros ->. discriminate Hl1.
Qed.
(** Two users connect to exDb and commit once. *)
Definition exM0 : shared := mrun exW exO (sh_init exDb)
  [(0%nat, WCreate [21%N; 10%N] 10%N 9%N []); (1%nat, WCreate [11%N; 21%N] 11%N 9%N []);
   (0%nat, WCommit None); (1%nat, WCommit None)].
Example exM0_hist : mhist exW exO exM0.
Proof. apply mokb_hist; [constructor|]. vm_compute. reflexivity. Qed.
(** User 0 changes object 21; user 1 makes a new object under her root. *)
Definition exM1 : shared := mrun exW exO exM0
  [(0%nat, WSetAttr 21%N 30%N (5%N, 5%N)); (1%nat, WCreate [] 23%N 3%N []); (1%nat, WAdd 11%N 1%N [23%N])].
Example exM1_hist : mhist exW exO exM1.
Proof. apply mokb_hist; [apply exM0_hist|]. vm_compute. reflexivity. Qed.
Definition exMl : list (nat * wop) := [(1%nat, WCommit None); (0%nat, WExpireAll)].
Definition exM2 : shared := mrun exW exO (mstep exW exO exM1 (0%nat, WCommit None)) exMl.
Definition no_uidb (r : uid) (d : graph) : bool :=
  forallb (fun t : triple => negb (bool_decide (fst t = r)) &&
    match snd t with TLink _ v => negb (bool_decide (v = r)) | _ => true end) (elements d).
Lemma no_uidb_ok r d : no_uidb r d = true -> no_uid r d.
Proof.
  unfold no_uidb. rewrite forallb_forall. intros H x p Hin.
  specialize (H (x, p) (proj1 (elem_of_list_In _ _) (proj2 (elem_of_elements _ _) Hin))).
  apply andb_true_iff in H as [H1 H2]. cbn [fst snd] in *. apply negb_true_iff, bool_decide_eq_false in H1.
  split; [done|]. intros q ->. apply negb_true_iff, bool_decide_eq_false in H2. done.
Qed.
(** The hypotheses of C64_no_lost_update hold; both changes are stored, and user 1
    then reads user 0's value. *)
Example C64_example :
  21%N ∈ bupd (ub (fst exM1 0%nat)) /\ 10%N ∈ wreg (fst exM1 0%nat) /\ wroot (fst exM1 0%nat) = Some 10%N /\
  spares exW exO 21%N (mstep exW exO exM1 (0%nat, WCommit None)) exMl /\
  wroot (sess_of exM2 1%nat) = Some 11%N /\ 21%N ∈ wreg (sess_of exM2 1%nat) /\ 21%N ∈ expd (sess_of exM2 1%nat) /\
  21%N ∉ bdel (ub (sess_of exM2 1%nat)) /\ no_uid 11%N (snd exM2) /\
  (21%N, TType 3%N) ∈ wgr (fst exM1 0%nat) /\
  (21%N, TAttr 30%N (5%N, 5%N)) ∈ snd exM2 /\ (23%N, TLink 2%N 0%N) ∈ snd exM2 /\ (0%N, TLink 1%N 23%N) ∈ snd exM2 /\
  (21%N, TAttr 30%N (5%N, 5%N)) ∉ wgr (fst exM2 1%nat) /\
  (21%N, TAttr 30%N (5%N, 5%N)) ∈ wgr (fst (notify_read exW (sess_of exM2 1%nat) 21%N)).
Proof.
  split_and!; try dec; try (vm_compute; reflexivity); [|by apply no_uidb_ok; vm_compute].
  assert (forall w x, bool_decide (x ∈ badd (ub w)) || bool_decide (x ∈ bupd (ub w)) || bool_decide (x ∈ bdel (ub w)) = false ->
    x <> 0%N -> ~ pends w x) as Hp.
  { intros w x H Hx (u & Hu & E). unfold stored_as in E. case_decide; [done|]. subst u.
    rewrite !orb_false_iff, !bool_decide_eq_false in H. tauto. }
  split; [split; [done|intros d; discriminate]|]. split.
  { intros f _. apply Hp; [vm_compute; reflexivity|done]. }
  split; [split; [done|intros d; discriminate]|]. split; [intros f; discriminate|done].
Qed.

(** The restriction to different objects is needed - and every object somebody adds
    to the wrapper changes the root, which all users share: if two users each add
    an object to their wrapper, the second commit drops the first user's link from
    the root, although nobody removed it, and the stored links are no longer
    bidirectional. *)
Theorem C64_same_object_refuted :
  exists isW O s i j a b q, mhist isW O s /\ i <> j /\
    (* i has linked a to its root, j has linked b to its root; nothing is removed *)
    (exists r, wroot (fst s i) = Some r /\ (r, TLink q a) ∈ wgr (fst s i) /\ a ∈ badd (ub (fst s i))) /\
    (exists r, wroot (fst s j) = Some r /\ (r, TLink q b) ∈ wgr (fst s j) /\ b ∈ badd (ub (fst s j))) /\
    bdel (ub (fst s i)) = ∅ /\ bdel (ub (fst s j)) = ∅ /\
    let s1 := mstep isW O s (i, WCommit None) in
    let s2 := mstep isW O s1 (j, WCommit None) in
    (0%N, TLink q a) ∈ snd s1 /\ (a, TLink (o_inv O q) 0%N) ∈ snd s1 /\
    (0%N, TLink q b) ∈ snd s2 /\ (0%N, TLink q a) ∉ snd s2 /\ (a, TLink (o_inv O q) 0%N) ∈ snd s2.
Proof.
  exists exW, exO, (mrun exW exO exM0
    [(0%nat, WCreate [] 31%N 3%N []); (0%nat, WAdd 10%N 1%N [31%N]);
     (1%nat, WCreate [] 32%N 3%N []); (1%nat, WAdd 11%N 1%N [32%N])]), 0%nat, 1%nat, 31%N, 32%N, 1%N.
  split. { apply mokb_hist; [apply exM0_hist|]. vm_compute. reflexivity. }
  split; [discriminate|].
  split. { exists 10%N. split_and!; [vm_compute; reflexivity|dec|dec]. }
  split. { exists 11%N. split_and!; [vm_compute; reflexivity|dec|dec]. }
  split; [dec|]. split; [dec|]. cbv zeta. split_and!; dec.
Qed.

(** A user's first commit does not have this problem: her root is then a new object
    for her, so her links are added to the stored ones. *)
Theorem C64_first_commit_keeps_root isW O s i r p :
  mhist isW O s -> wroot (fst s i) = Some r -> r ∈ badd (ub (fst s i)) ->
  (0%N, p) ∈ snd s -> (0%N, p) ∈ snd (mstep isW O s (i, WCommit None)).
Proof.
  intros Hs Hr Ha Hp. pose proof (bi_add _ (bo_inv _ (whist_ok _ _ _ (mhist_whist _ _ _ Hs i))) r Ha) as Hreg.
  destruct (C64_commit isW O s i r Hs Hr Hreg) as (_ & _ & _ & _ & H & _).
  specialize (H r p Ha). assert (stored_as (sess_of s i) r = 0%N) as E.
  { unfold stored_as. change (wroot (sess_of s i)) with (wroot (fst s i)). by rewrite decide_True. }
  rewrite E in H. apply H. by left.
Qed.
Example C64_first_commit_example :
  let s := mrun exW exO (sh_init exDb) [(0%nat, WCreate [21%N; 10%N] 10%N 9%N [])] in
  mhist exW exO s /\ wroot (fst s 0%nat) = Some 10%N /\ 10%N ∈ badd (ub (fst s 0%nat)) /\ (0%N, TLink 1%N 21%N) ∈ snd s.
Proof.
  cbv zeta. split. { apply mokb_hist; [constructor|]. vm_compute. reflexivity. }
  split_and!; [vm_compute; reflexivity|dec|dec].
Qed.

Print Assumptions C64_isolation.
Print Assumptions C64_untouched.
Print Assumptions C64_commit.
Print Assumptions C64_no_lost_update.
Print Assumptions C64_same_object_refuted.
Print Assumptions C64_first_commit_keeps_root.
