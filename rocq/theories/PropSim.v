(** C58: simulation and file sessions hand every change to the engine. *)
From stdpp Require Import base sets list gmap countable.
From Verif Require Import Prelude Cuds Wrapper WrapperProofs PropCuds PropWrapper Sim.

(** ** Specification *)

(** The objects the engine has been told of: those of the successful calls of
    _initialize and _apply_added, without those of _apply_deleted. *)
Fixpoint told (E : gset uid) (l : list (call * bool)) : gset uid :=
  match l with
  | [] => E
  | (CInit _ us, false) :: l' | (CAdded _ us, false) :: l' => told (E ∪ us) l'
  | (CDeleted _ us, false) :: l' => told (E ∖ us) l'
  | _ :: l' => told E l'
  end.

(** The calls that the last operation made. *)
Definition new_calls {X} (s s' : sim X) : list (call * bool) := drop (length (s_calls s)) (s_calls s').

(** Loading something does not create or delete objects. *)
Definition quiet (isW : cls -> bool) (p : eprog) : Prop :=
  forall w, wreg (fst (erun isW p w)) = wreg w.
Definition quiet_methods {X} (isW : cls -> bool) (K : methods X) : Prop :=
  forall c x w, quiet isW (snd (K c x w)).

(** The methods of the engine that may raise in a run: the first one, which then
    has no effect on the engine; and _run, if the simulation has run before. *)
Definition may_raise {X} (s : sim X) (c : call) : Prop :=
  match c with
  | CInit _ _ | CAdded _ _ | COpen => True
  | CRun _ => s_ran s = true
  | _ => False
  end.

(** New objects have a uid that no object has, not even one whose deletion has
    not been handed over yet; only objects of the session are written to. *)
Definition allowed {X} (isW : cls -> bool) (act : sim X -> sim X * option exn) (s : sim X) (o : sop) : Prop :=
  match o with
  | SStore u _ => u ∉ wreg (s_w s) /\ u ∉ bdel (ub (s_w s))
  | SWrite u _ => u ∈ wreg (s_w s)
  | SDelete _ | SExpire _ => True
  | SEngine p => quiet isW p
  | SRun => forall c, (c, true) ∈ new_calls s (fst (act s)) -> may_raise s c
  end.
Fixpoint allowed_all {X} (isW : cls -> bool) (act : sim X -> sim X * option exn) (s : sim X) (os : list sop) : Prop :=
  match os with
  | [] => True
  | o :: os' => allowed isW act s o /\ allowed_all isW act (sstep isW act s o) os'
  end.
Definition sruns {X} (isW : cls -> bool) (act : sim X -> sim X * option exn) (s : sim X) (os : list sop) : sim X :=
  foldl (sstep isW act) s os.

(** ** Calls *)
Lemma told_app l1 : forall E l2, told E (l1 ++ l2) = told (told E l1) l2.
Proof. induction l1 as [|[c b] l1 IH]; intros E l2; [done|]. simpl. destruct c, b; simpl; apply IH. Qed.

Section Methods.
  Context {X : Type} (isW : cls -> bool) (K : methods X).

  Lemma invoke_spec c s s' e : cur (s_w s) = ENGINE -> invoke isW K c s = (s', e) ->
    kept (s_w s) (s_w s') /\ s_ran s' = s_ran s /\
    s_calls s' = s_calls s ++ [(c, bool_decide (e <> None))] /\
    (quiet_methods isW K -> wreg (s_w s') = wreg (s_w s)).
  Proof.
    intros Hc. unfold invoke. destruct (K c (s_x s) (s_w s)) as [x' p] eqn:EK.
    pose proof (erun_kept isW p (s_w s) Hc) as Hk.
    assert (HQ : quiet_methods isW K -> wreg (fst (erun isW p (s_w s))) = wreg (s_w s)).
    { intros HQ. specialize (HQ c (s_x s) (s_w s)). rewrite EK in HQ. apply HQ. }
    destruct (erun isW p (s_w s)) as [w' b]. simpl in *. intros [= <- <-]. simpl.
    split; [done|]. split; [done|]. split; [by destruct b|done].
  Qed.

  Lemma invoke_all_spec cs : forall s s' e, cur (s_w s) = ENGINE -> invoke_all isW K cs s = (s', e) ->
    kept (s_w s) (s_w s') /\ s_ran s' = s_ran s /\
    (quiet_methods isW K -> wreg (s_w s') = wreg (s_w s)) /\
    match e with
    | None => s_calls s' = s_calls s ++ map (fun c => (c, false)) cs
    | Some _ => exists cs1 c cs2, cs = cs1 ++ c :: cs2 /\
                  s_calls s' = s_calls s ++ map (fun c => (c, false)) cs1 ++ [(c, true)]
    end.
  Proof.
    induction cs as [|c cs IH]; simpl; intros s s' e Hc.
    - intros [= <- <-]. rewrite app_nil_r. done.
    - destruct (invoke isW K c s) as [s1 e1] eqn:E1. apply invoke_spec in E1 as (H1 & H2 & H3 & H4); [|done].
      destruct e1 as [x|].
      + intros [= <- <-]. split; [done|]. split; [done|]. split; [done|]. exists [], c, cs. done.
      + intros E2. apply IH in E2 as (G1 & G2 & G3 & G4); [|by rewrite <-Hc; apply H1].
        split; [by eapply kept_trans|]. split; [congruence|]. split; [intros HQ; by rewrite G3, H4|].
        rewrite H3 in G4. destruct e as [x|].
        * destruct G4 as (cs1 & c' & cs2 & -> & G5). exists (c :: cs1), c', cs2. split; [done|].
          by rewrite G5, <-(assoc_L (++)).
        * by rewrite G4, <-(assoc_L (++)).
  Qed.
End Methods.

Lemma enter_engine_same w : core (enter_engine w) = core w /\ ub (enter_engine w) = ub w /\
  expd (enter_engine w) = expd w /\ db (enter_engine w) = db w /\ cur (enter_engine w) = ENGINE.
Proof. unfold enter_engine. destruct (decide (cur w = ENGINE)); done. Qed.

(** ** run *)
Section Run.
  Context {X : Type} (isW : cls -> bool) (K : methods X).

  (** The calls a run makes, in order. *)
  Definition run_calls (s : sim X) (r : uid) : list call :=
    (if s_ran s then [CAdded r (badd (ub (s_w s))); CUpdated r (bupd (ub (s_w s))); CDeleted r (bdel (ub (s_w s)))]
     else [CInit r (badd (ub (s_w s)))]) ++ [CRun r].

  Lemma run_spec s s' e : sim_run isW K s = (s', e) ->
    cur (s_w s') = cur (s_w s) /\ db (s_w s') = db (s_w s) /\
    (quiet_methods isW K -> wreg (s_w s') = wreg (s_w s)) /\
    match e with
    | None => exists r, wroot (s_w s) = Some r /\ r ∈ wreg (s_w s) /\
        s_calls s' = s_calls s ++ map (fun c => (c, false)) (run_calls s r) /\
        s_ran s' = true /\ ub (s_w s') = no_bufs /\ expd (s_w s') = wreg (s_w s')
    | Some x => s_ran s' = s_ran s /\
        ((s_calls s' = s_calls s /\ ub (s_w s') = ub (s_w s) /\
          (wroot (s_w s) = None \/ exists r, wroot (s_w s) = Some r /\ r ∉ wreg (s_w s))) \/
         (exists r cs1 c cs2, wroot (s_w s) = Some r /\ run_calls s r = cs1 ++ c :: cs2 /\
            s_calls s' = s_calls s ++ map (fun c => (c, false)) cs1 ++ [(c, true)] /\
            ub (s_w s') = if decide (c = CRun r) then no_bufs else ub (s_w s)))
    end.
  Proof.
    unfold sim_run, sim_engine. destruct (enter_engine_same (s_w s)) as (A1 & A2 & A3 & A4 & A5).
    assert (Hreg : wreg (enter_engine (s_w s)) = wreg (s_w s)) by (unfold wreg; by rewrite A1).
    assert (Hroot : wroot (enter_engine (s_w s)) = wroot (s_w s)) by (unfold wroot; by rewrite A1).
    set (s0 := set_w s (enter_engine (s_w s))).
    assert (B : wroot (s_w s0) = wroot (s_w s) /\ wreg (s_w s0) = wreg (s_w s) /\ ub (s_w s0) = ub (s_w s) /\
      db (s_w s0) = db (s_w s) /\ cur (s_w s0) = ENGINE /\ s_ran s0 = s_ran s /\ s_calls s0 = s_calls s) by done.
    clearbody s0. clear A1 A2 A3 A4 A5 Hreg Hroot. destruct B as (B1 & B2 & B3 & B4 & B5 & B6 & B7).
    rewrite B1, B2, B3, B6. destruct (wroot (s_w s)) as [r|] eqn:Er.
    2:{ intros [= <- <-]. simpl. split; [done|]. split; [done|]. split; [done|].
        split; [done|]. left. split; [done|]. split; [done|]. by left. }
    destruct (decide (r ∈ wreg (s_w s))) as [Hr|Hr].
    2:{ intros [= <- <-]. simpl. split; [done|]. split; [done|]. split; [done|].
        split; [done|]. left. split; [done|]. split; [done|]. right. by exists r. }
    destruct (invoke_all isW K _ s0) as [s1 e1] eqn:E1.
    apply invoke_all_spec in E1 as (H1 & H2 & H3 & H4); [|exact B5].
    destruct H1 as (K1 & K2 & K3). rewrite B3 in K1. rewrite B4 in K3. rewrite B5 in K2. rewrite B6 in H2. rewrite B2 in H3. rewrite B7 in H4.
    destruct e1 as [x|].
    - intros [= <- <-]. simpl. split; [done|]. split; [done|]. split; [done|]. split; [done|]. right.
      destruct H4 as (cs1 & c & cs2 & H5 & H6). exists r, cs1, c, (cs2 ++ [CRun r]). split; [done|]. split.
      { unfold run_calls. rewrite H5, <-(assoc_L (++)). done. }
      split; [done|]. rewrite decide_False; [done|]. intros ->. destruct (s_ran s).
      + destruct cs1 as [|? [|? [|? [|? ?]]]]; discriminate H5.
      + destruct cs1 as [|? [|? ?]]; discriminate H5.
    - destruct (invoke isW K (CRun r) _) as [s2 e2] eqn:E2.
      apply invoke_spec in E2 as ((L1 & L2 & L3) & G2 & G3 & G4); [|exact K2].
      simpl in L1, L2, L3, G2, G3, G4. destruct e2 as [x|].
      + intros [= <- <-]. simpl. split; [done|]. split; [congruence|]. split; [intros HQ; exact (eq_trans (G4 HQ) (H3 HQ))|].
        split; [congruence|]. right.
        exists r, (if s_ran s then [CAdded r (badd (ub (s_w s))); CUpdated r (bupd (ub (s_w s))); CDeleted r (bdel (ub (s_w s)))]
                   else [CInit r (badd (ub (s_w s)))]), (CRun r), []. split; [done|]. split; [done|].
        split; [rewrite G3, H4, <-(assoc_L (++)); done|]. by rewrite decide_True.
      + intros [= <- <-]. simpl. split; [done|]. split; [congruence|]. split; [intros HQ; exact (eq_trans (G4 HQ) (H3 HQ))|].
        exists r. split; [done|]. split; [done|]. split.
        { rewrite G3, H4. unfold run_calls. rewrite map_app, <-(assoc_L (++)). done. }
        split; [done|]. split; [done|].
        unfold expire_all, expire. simpl. rewrite L1. unfold buids, no_bufs. simpl.
        apply set_eq. intros u. unfold wreg. simpl. set_solver.
  Qed.
End Run.

(** ** save *)
Section Save.
  Context {X : Type} (isW : cls -> bool) (K : methods X).

  (** The calls a save makes, in order. *)
  Definition save_calls (s : sim X) (r : uid) : list call :=
    [COpen; CAdded r (badd (ub (s_w s))); CUpdated r (bupd (ub (s_w s))); CDeleted r (bdel (ub (s_w s))); CSave; CClose].

  Lemma save_spec s s' e : file_save isW K s = (s', e) ->
    cur (s_w s') = cur (s_w s) /\ db (s_w s') = db (s_w s) /\ s_ran s' = s_ran s /\
    (quiet_methods isW K -> wreg (s_w s') = wreg (s_w s)) /\
    match e with
    | None => exists r, wroot (s_w s) = Some r /\
        s_calls s' = s_calls s ++ map (fun c => (c, false)) (save_calls s r) /\
        ub (s_w s') = no_bufs /\ expd (s_w s') = wreg (s_w s')
    | Some x => ub (s_w s') = ub (s_w s) /\
        ((s_calls s' = s_calls s /\ wroot (s_w s) = None) \/
         (exists r, wroot (s_w s) = Some r /\ s_calls s' = s_calls s ++ [(COpen, false)] /\ x = KeyError) \/
         (exists r cs1 c cs2, wroot (s_w s) = Some r /\ save_calls s r = cs1 ++ c :: cs2 /\
            s_calls s' = s_calls s ++ map (fun c => (c, false)) cs1 ++ [(c, true)]))
    end.
  Proof.
    unfold file_save, sim_engine. destruct (enter_engine_same (s_w s)) as (A1 & A2 & A3 & A4 & A5).
    assert (Hreg : wreg (enter_engine (s_w s)) = wreg (s_w s)) by (unfold wreg; by rewrite A1).
    assert (Hroot : wroot (enter_engine (s_w s)) = wroot (s_w s)) by (unfold wroot; by rewrite A1).
    set (s0 := set_w s (enter_engine (s_w s))).
    assert (B : wroot (s_w s0) = wroot (s_w s) /\ wreg (s_w s0) = wreg (s_w s) /\ ub (s_w s0) = ub (s_w s) /\
      db (s_w s0) = db (s_w s) /\ cur (s_w s0) = ENGINE /\ s_ran s0 = s_ran s /\ s_calls s0 = s_calls s) by done.
    clearbody s0. clear A1 A2 A3 A4 A5 Hreg Hroot. destruct B as (B1 & B2 & B3 & B4 & B5 & B6 & B7).
    rewrite B1. destruct (wroot (s_w s)) as [r|] eqn:Er.
    2:{ intros [= <- <-]. simpl. split; [done|]. split; [done|]. split; [done|]. split; [done|].
        split; [done|]. by left. }
    destruct (invoke isW K COpen s0) as [s1 e1] eqn:E1.
    apply invoke_spec in E1 as ((L1 & L2 & L3) & G2 & G3 & G4); [|exact B5].
    rewrite B3 in L1. rewrite B4 in L3. rewrite B5 in L2. rewrite B6 in G2. rewrite B2 in G4. rewrite B7 in G3.
    destruct e1 as [x|].
    { intros [= <- <-]. simpl. split; [done|]. split; [done|]. split; [done|]. split; [done|]. split; [done|].
      right. right. exists r, [], COpen. eexists. done. }
    destruct (decide (r ∈ wreg (s_w s1))) as [Hr|Hr].
    2:{ intros [= <- <-]. simpl. split; [done|]. split; [done|]. split; [done|]. split; [done|]. split; [done|].
        right. left. exists r. done. }
    rewrite L1. destruct (invoke_all isW K _ s1) as [s2 e2] eqn:E2.
    apply invoke_all_spec in E2 as (H1 & H2 & H3 & H4); [|exact L2].
    destruct H1 as (K1 & K2 & K3). rewrite G3 in H4. destruct e2 as [x|].
    - intros [= <- <-]. simpl. split; [done|]. split; [congruence|]. split; [congruence|].
      split; [intros HQ; exact (eq_trans (H3 HQ) (G4 HQ))|]. split; [congruence|]. right. right.
      destruct H4 as (cs1 & c & cs2 & H5 & H6). exists r, (COpen :: cs1), c, cs2. split; [done|].
      split; [unfold save_calls; by rewrite H5|]. rewrite H6, <-(assoc_L (++)). done.
    - intros [= <- <-]. simpl. split; [done|]. split; [congruence|]. split; [congruence|].
      split; [intros HQ; exact (eq_trans (H3 HQ) (G4 HQ))|]. exists r. split; [done|].
      split; [rewrite H4, <-(assoc_L (++)); done|]. split; [done|].
      unfold expire_all, expire. simpl. unfold buids, no_bufs. simpl.
      apply set_eq. intros u. unfold wreg. simpl. set_solver.
  Qed.
End Save.

(** ** Histories *)
Definition known_to {X} (s : sim X) : gset uid := told ∅ (s_calls s).

Record sinv {X} (s : sim X) : Prop := {
  si_cur : cur (s_w s) = USER;
  si_ad : badd (ub (s_w s)) ## bdel (ub (s_w s));
  si_au : badd (ub (s_w s)) ## bupd (ub (s_w s));
  si_at : badd (ub (s_w s)) ## known_to s;
  si_dt : bdel (ub (s_w s)) ⊆ known_to s;
  si_ut : bupd (ub (s_w s)) ⊆ known_to s ∖ bdel (ub (s_w s));
  si_reg : wreg (s_w s) = (known_to s ∖ bdel (ub (s_w s))) ∪ badd (ub (s_w s)) }.

Lemma sinv_new {X} (x : X) : sinv (sim_new x).
Proof. split; try done; unfold known_to; simpl; set_solver. Qed.

Lemma sinv_same {X} (s : sim X) w : sinv s -> cur w = cur (s_w s) -> ub w = ub (s_w s) -> wreg w = wreg (s_w s) ->
  sinv (set_w s w).
Proof.
  intros [H1 H2 H3 H4 H5 H6 H7] E1 E2 E3.
  split; unfold set_w, known_to in *; cbn [s_w s_calls] in *; rewrite ?E1, ?E2, ?E3; assumption.
Qed.

Lemma sinv_user {X} isW act (s : sim X) o : sinv s -> allowed isW act s o -> o <> SRun -> sinv (sstep isW act s o).
Proof.
  intros Hs Ha Ho. destruct o as [u ts|u g|u|us|p|]; simpl in Ha |- *; [| | | | |done].
  - unfold w_store. destruct (match classes ts u with [] => None | _ :: _ => _ end); [apply sinv_same; done|].
    destruct Ha as [Ha1 Ha2]. destruct Hs as [H1 H2 H3 H4 H5 H6 H7].
    rewrite decide_False by done. unfold set_cur_buf, cur_buf. rewrite H1.
    assert (u ∉ known_to s). { rewrite H7 in Ha1. set_solver. }
    split; unfold set_w, known_to in *; cbn [s_w s_calls set_core set_ub ub cur core wreg reg badd bupd bdel]; [done|set_solver..| |].
    + set_solver.
    + unfold wreg in *. cbn [core reg]. rewrite H7. apply set_eq. intros v. destruct (decide (v = u)); set_solver.
  - assert (Hu : u ∉ bdel (ub (s_w s))). { destruct Hs as [H1 H2 H3 H4 H5 H6 H7]. rewrite H7 in Ha. set_solver. }
    unfold notify_update, cur_buf, set_cur_buf. destruct Hs as [H1 H2 H3 H4 H5 H6 H7].
    cbn [set_wgr set_core cur ub]. rewrite H1. rewrite decide_False by done.
    destruct (decide (u ∈ _ ∪ _)) as [Hi|Hi]; cbn [fst]; [by apply sinv_same|].
    apply not_elem_of_union in Hi as [Hi1 Hi2].
    assert (u ∈ known_to s). { rewrite H7 in Ha. set_solver. }
    split; unfold set_w, known_to in *; cbn [s_w s_calls set_wgr set_core set_ub ub cur badd bupd bdel]; [done|set_solver..|].
    unfold wreg in *. exact H7.
  - unfold w_delete_triples, delete_triples. destruct (decide (u ∈ reg (core (s_w s)))) as [Hu|Hu]; cbn [fst]; [|by apply sinv_same].
    destruct Hs as [H1 H2 H3 H4 H5 H6 H7]. unfold wreg in H7. rewrite H7 in Hu.
    unfold notify_delete, cur_buf, set_cur_buf. cbn [set_core cur ub]. rewrite H1.
    destruct (decide (u ∈ badd _)) as [Hi|Hi]; [|destruct (decide (u ∈ bupd _)) as [Hj|Hj]];
      split; unfold set_w, known_to in *; cbn [s_w s_calls set_core set_ub ub cur badd bupd bdel]; unfold wreg; cbn [core reg set_core set_ub];
      rewrite ?H7; try done; try set_solver.
  - apply sinv_same; done.
  - destruct (C26_engine_context isW p (s_w s)) as (H1 & H2 & _). apply sinv_same; [done..|].
    unfold in_engine. specialize (Ha (enter_engine (s_w s))). destruct (erun isW p (enter_engine (s_w s))) as [w' b].
    cbn [fst] in Ha |- *. unfold wreg, set_cur. cbn [core]. unfold wreg in Ha. rewrite Ha.
    by rewrite (proj1 (enter_engine_same (s_w s))).
Qed.

(** Buffers handed over completely: the engine knows the objects of the session. *)
Lemma sinv_handed {X} (s s' : sim X) : sinv s -> cur (s_w s') = cur (s_w s) -> wreg (s_w s') = wreg (s_w s) ->
  ub (s_w s') = no_bufs -> known_to s' = (known_to s ∪ badd (ub (s_w s))) ∖ bdel (ub (s_w s)) ->
  sinv s' /\ known_to s' = wreg (s_w s').
Proof.
  intros [H1 H2 H3 H4 H5 H6 H7] E1 E2 E3 E4.
  assert (E5 : known_to s' = wreg (s_w s')). { rewrite E4, E2, H7. clear -H2. set_solver. }
  split; [|done]. split; rewrite ?E1, ?E3; unfold no_bufs; cbn [badd bupd bdel]; try done; [set_solver..|].
  rewrite <-E5. clear. set_solver.
Qed.
Lemma sinv_kept {X} (s s' : sim X) : sinv s -> cur (s_w s') = cur (s_w s) -> wreg (s_w s') = wreg (s_w s) ->
  ub (s_w s') = ub (s_w s) -> known_to s' = known_to s -> sinv s'.
Proof.
  intros [H1 H2 H3 H4 H5 H6 H7] E1 E2 E3 E4. split; rewrite ?E1, ?E2, ?E3, ?E4; done.
Qed.
Lemma new_calls_app {X} (s s' : sim X) l : s_calls s' = s_calls s ++ l -> new_calls s s' = l.
Proof. unfold new_calls. intros ->. by rewrite drop_app. Qed.
Lemma split_at {A} (l1 : list A) x l2 a b : l1 ++ x :: l2 = a :: b ->
  (l1 = [] /\ x = a /\ l2 = b) \/ (exists l1', l1 = a :: l1' /\ l1' ++ x :: l2 = b).
Proof. destruct l1 as [|y l1]; simpl; intros [= H1 H2]; subst; [by left|right; eauto]. Qed.

Definition sinv_sim {X} (s : sim X) : Prop := sinv s /\ (s_ran s = false -> known_to s = ∅).

Lemma sinv_run {X} isW (K : methods X) s : quiet_methods isW K -> sinv_sim s ->
  allowed isW (sim_run isW K) s SRun ->
  sinv_sim (fst (sim_run isW K s)) /\
  (snd (sim_run isW K s) = None -> known_to (fst (sim_run isW K s)) = wreg (s_w (fst (sim_run isW K s)))).
Proof.
  intros HQ [Hs Hr] Ha. simpl in Ha. destruct (sim_run isW K s) as [s' e] eqn:E. cbn [fst snd] in *.
  apply run_spec in E as (E1 & E2 & E3 & E4). specialize (E3 HQ). destruct e as [x|].
  - split; [|done]. destruct E4 as (E4 & [(E5 & E6 & _)|(r & cs1 & c & cs2 & E5 & E6 & E7 & E8)]).
    { assert (known_to s' = known_to s) by (unfold known_to; by rewrite E5).
      split; [by eapply sinv_kept|]. intros Hf. rewrite H. apply Hr. congruence. }
    assert (Hc : may_raise s c).
    { apply Ha. rewrite (new_calls_app _ _ _ E7), elem_of_app, elem_of_list_singleton. by right. }
    assert (Hk : known_to s' = told (known_to s) (map (fun c => (c, false)) cs1)).
    { unfold known_to. rewrite E7, told_app, told_app. destruct c; done. }
    assert (Hfin : cs1 = [] -> sinv_sim s').
    { intros ->. cbn in Hk. rewrite decide_False in E8.
      - split; [by eapply sinv_kept|]. intros Hf. rewrite Hk. apply Hr. congruence.
      - intros ->. unfold run_calls in E6. destruct (s_ran s); discriminate E6. }
    unfold run_calls in E6. destruct (s_ran s) eqn:Eran; cbn [app] in E6; symmetry in E6.
    + apply split_at in E6 as [(H1 & H2 & H3)|(l1 & H1 & E6)]; [by apply Hfin|].
      apply split_at in E6 as [(H1' & -> & H3)|(l2 & H2 & E6)]; [done|].
      apply split_at in E6 as [(H1' & -> & H3)|(l3 & H3 & E6)]; [done|].
      apply split_at in E6 as [(H1' & -> & H4)|(l4 & H4 & E6)]; [|destruct l4; discriminate E6].
      rewrite decide_True in E8 by done. subst cs1 l1 l2 l3. cbn in Hk.
      split; [|congruence]. by eapply sinv_handed.
    + apply split_at in E6 as [(H1 & H2 & H3)|(l1 & H1 & E6)]; [by apply Hfin|].
      apply split_at in E6 as [(H1' & -> & H3)|(l2 & H2 & E6)]; [|destruct l2; discriminate E6].
      simpl in Hc. congruence.
  - destruct E4 as (r & E4 & E5 & E6 & E7 & E8 & E9).
    assert (Hk : known_to s' = (known_to s ∪ badd (ub (s_w s))) ∖ bdel (ub (s_w s))).
    { unfold known_to at 1. rewrite E6, told_app. unfold run_calls. fold (known_to s). destruct (s_ran s) eqn:Eran; cbn; [done|].
      destruct Hs as [H1 H2 H3 H4 H5 H6 H7]. rewrite Hr in * by done. clear -H2 H5. set_solver. }
    destruct (sinv_handed s s' Hs E1 E3 E8 Hk) as [G1 G2].
    split; [|done]. split; [done|congruence].
Qed.

Lemma sinv_sim_user {X} isW act (s : sim X) o : sinv_sim s -> allowed isW act s o -> o <> SRun -> sinv_sim (sstep isW act s o).
Proof.
  intros [H1 H2] Ha Ho. split; [by apply sinv_user|]. by destruct o.
Qed.
Lemma sinv_runs {X} isW (K : methods X) os : quiet_methods isW K -> forall s, sinv_sim s ->
  allowed_all isW (sim_run isW K) s os -> sinv_sim (sruns isW (sim_run isW K) s os).
Proof.
  intros HQ. induction os as [|o os IH]; intros s Hs Ha; [done|]. destruct Ha as [Ha1 Ha2].
  apply (IH (sstep isW (sim_run isW K) s o)); [|done].
  destruct o; try (by apply sinv_sim_user). by apply sinv_run.
Qed.

Lemma sinv_save {X} isW (K : methods X) s : quiet_methods isW K -> sinv s ->
  allowed isW (file_save isW K) s SRun ->
  sinv (fst (file_save isW K s)) /\
  (snd (file_save isW K s) = None -> known_to (fst (file_save isW K s)) = wreg (s_w (fst (file_save isW K s)))).
Proof.
  intros HQ Hs Ha. simpl in Ha. destruct (file_save isW K s) as [s' e] eqn:E. cbn [fst snd] in *.
  apply save_spec in E as (E1 & E2 & _ & E3 & E4). specialize (E3 HQ). destruct e as [x|].
  - split; [|done]. destruct E4 as (E4 & [(E5 & _)|[(r & _ & E5 & _)|(r & cs1 & c & cs2 & E5 & E6 & E7)]]).
    + eapply sinv_kept; try done. unfold known_to. by rewrite E5.
    + eapply sinv_kept; try done. unfold known_to. by rewrite E5, told_app.
    + assert (Hc : may_raise s c).
      { apply Ha. rewrite (new_calls_app _ _ _ E7), elem_of_app, elem_of_list_singleton. by right. }
      assert (Hk : known_to s' = told (known_to s) (map (fun c => (c, false)) cs1)).
      { unfold known_to. rewrite E7, told_app, told_app. destruct c; done. }
      unfold save_calls in E6. symmetry in E6.
      apply split_at in E6 as [(-> & _ & _)|(l1 & -> & E6)]; [by eapply sinv_kept|].
      apply split_at in E6 as [(-> & _ & _)|(l2 & -> & E6)]; [by eapply sinv_kept|].
      exfalso. apply split_at in E6 as [(_ & -> & _)|(l3 & -> & E6)]; [done|].
      apply split_at in E6 as [(_ & -> & _)|(l4 & -> & E6)]; [done|].
      apply split_at in E6 as [(_ & -> & _)|(l5 & -> & E6)]; [done|].
      apply split_at in E6 as [(_ & -> & _)|(l6 & -> & E6)]; [done|]. by destruct l6.
  - destruct E4 as (r & E4 & E6 & E8 & E9). 
    assert (Hk : known_to s' = (known_to s ∪ badd (ub (s_w s))) ∖ bdel (ub (s_w s)))
      by (unfold known_to at 1; rewrite E6, told_app; done).
    destruct (sinv_handed s s' Hs E1 E3 E8 Hk) as [G1 G2]. done.
Qed.
Lemma sinv_saves {X} isW (K : methods X) os : quiet_methods isW K -> forall s, sinv s ->
  allowed_all isW (file_save isW K) s os -> sinv (sruns isW (file_save isW K) s os).
Proof.
  intros HQ. induction os as [|o os IH]; intros s Hs Ha; [done|]. destruct Ha as [Ha1 Ha2].
  apply (IH (sstep isW (file_save isW K) s o)); [|done].
  destruct o; try (by apply sinv_user). by apply sinv_save.
Qed.

(** A write is remembered until the next run, unless the object is deleted. *)
Lemma written_step {X} isW act (s : sim X) o u : cur (s_w s) = USER -> o <> SRun -> o <> SDelete u ->
  u ∈ badd (ub (s_w s)) ∪ bupd (ub (s_w s)) ->
  u ∈ badd (ub (s_w (sstep isW act s o))) ∪ bupd (ub (s_w (sstep isW act s o))).
Proof.
  intros Hc Ho Hd Hu. destruct o as [v ts|v g|v|us|p|]; simpl; [| | | | |done].
  - unfold w_store. destruct (match classes ts v with [] => None | _ :: _ => _ end); [done|].
    unfold set_cur_buf, cur_buf. rewrite Hc. destruct (decide (v ∈ wreg (s_w s))); cbn; set_solver.
  - unfold notify_update, cur_buf, set_cur_buf. cbn [set_wgr set_core cur ub]. rewrite Hc.
    destruct (decide (v ∈ bdel _)); [done|]. destruct (decide (v ∈ _ ∪ _)); [done|]. cbn. set_solver.
  - unfold w_delete_triples, delete_triples. destruct (decide (v ∈ reg (core (s_w s)))); [|done].
    unfold notify_delete, cur_buf, set_cur_buf. cbn [set_core cur ub]. rewrite Hc.
    assert (v <> u) by (intros ->; done).
    destruct (decide (v ∈ badd _)); [|destruct (decide (v ∈ bupd _))]; cbn; set_solver.
  - done.
  - by rewrite (proj1 (C26_engine_context isW p (s_w s))).
Qed.
Lemma cur_step {X} isW act (s : sim X) o : o <> SRun -> cur (s_w (sstep isW act s o)) = cur (s_w s).
Proof.
  intros Ho. destruct o as [v ts|v g|v|us|p|]; simpl; [| | | | |done].
  - unfold w_store. destruct (match classes ts v with [] => None | _ :: _ => _ end); [done|].
    unfold set_cur_buf, cur_buf. destruct (cur (s_w s)) eqn:E; exact E.
  - unfold notify_update, cur_buf, set_cur_buf. cbn [set_wgr set_core cur ub].
    destruct (cur (s_w s)) eqn:E; destruct (decide (v ∈ bdel _)); try exact E; destruct (decide (v ∈ _ ∪ _)); exact E.
  - unfold w_delete_triples, delete_triples. destruct (decide (v ∈ reg (core (s_w s)))); [|done].
    unfold notify_delete, cur_buf, set_cur_buf. cbn [set_core cur ub].
    destruct (cur (s_w s)) eqn:E; destruct (decide (v ∈ badd _)); try exact E; destruct (decide (v ∈ bupd _)); exact E.
  - done.
  - apply (C26_engine_context isW p (s_w s)).
Qed.
Lemma written_kept {X} isW act u os : forall s : sim X, cur (s_w s) = USER -> SRun ∉ os -> SDelete u ∉ os ->
  u ∈ badd (ub (s_w s)) ∪ bupd (ub (s_w s)) ->
  u ∈ badd (ub (s_w (sruns isW act s os))) ∪ bupd (ub (s_w (sruns isW act s os))).
Proof.
  induction os as [|o os IH]; intros s Hc H1 H2 Hu; [done|]. apply not_elem_of_cons in H1 as [H1 H1'].
  apply not_elem_of_cons in H2 as [H2 H2']. apply (IH (sstep isW act s o)); [|done..|].
  - rewrite cur_step; [done|]. by intros ->.
  - apply written_step; [done|by intros ->..|done].
Qed.
Lemma written_write {X} isW act (s : sim X) u g : sinv s -> u ∈ wreg (s_w s) ->
  u ∈ badd (ub (s_w (sstep isW act s (SWrite u g)))) ∪ bupd (ub (s_w (sstep isW act s (SWrite u g)))).
Proof.
  intros [H1 H2 H3 H4 H5 H6 H7] Hu. rewrite H7 in Hu. simpl. unfold notify_update, cur_buf, set_cur_buf.
  cbn [set_wgr set_core cur ub]. rewrite H1. rewrite decide_False by set_solver.
  destruct (decide (u ∈ _ ∪ _)); [done|]. cbn. set_solver.
Qed.
Lemma allowed_app {X} isW act os1 : forall (s : sim X) os2, allowed_all isW act s (os1 ++ os2) ->
  allowed_all isW act s os1 /\ allowed_all isW act (sruns isW act s os1) os2.
Proof.
  induction os1 as [|o os1 IH]; intros s os2; [done|]. simpl. intros [H1 H2]. apply IH in H2 as [H2 H3]. done.
Qed.

(** ** Theorems *)

(** One call of run(), whatever the state and whatever the engine's methods do.
    If it succeeds: the engine was given exactly the pending changes, in order
    (only the added objects in the first run), then it ran; nothing is pending and
    every object will be reloaded.  If it raises: the calls made are a prefix, the
    last one raised; the pending changes are kept unless it was _run that raised.
    The context and the backend graph are as before. *)
Theorem C58_run {X} isW (K : methods X) s s' e : sim_run isW K s = (s', e) ->
  cur (s_w s') = cur (s_w s) /\
  match e with
  | None => exists r, wroot (s_w s) = Some r /\
      new_calls s s' =
        (if s_ran s then [(CAdded r (badd (ub (s_w s))), false); (CUpdated r (bupd (ub (s_w s))), false);
                          (CDeleted r (bdel (ub (s_w s))), false); (CRun r, false)]
         else [(CInit r (badd (ub (s_w s))), false); (CRun r, false)]) /\
      s_ran s' = true /\ ub (s_w s') = no_bufs /\ expd (s_w s') = wreg (s_w s')
  | Some x => s_ran s' = s_ran s /\
      ((new_calls s s' = [] /\ ub (s_w s') = ub (s_w s) /\
        (wroot (s_w s) = None \/ exists r, wroot (s_w s) = Some r /\ r ∉ wreg (s_w s))) \/
       (exists done c, new_calls s s' = done ++ [(c, true)] /\ (forall d b, (d, b) ∈ done -> b = false) /\
          ((exists r, c = CRun r) /\ ub (s_w s') = no_bufs \/ (forall r, c <> CRun r) /\ ub (s_w s') = ub (s_w s))))
  end.
Proof.
  intros E. apply run_spec in E as (E1 & E2 & E3 & E4). split; [done|]. destruct e as [x|].
  - destruct E4 as (E4 & H). split; [done|]. destruct H as [(E5 & E6 & E7)|(r & cs1 & c & cs2 & E5 & E6 & E7 & E8)].
    + left. split; [|done]. apply new_calls_app. by rewrite E5, app_nil_r.
    + right. exists (map (fun c => (c, false)) cs1), c. split; [by apply new_calls_app|].
      split. { intros d b Hd. apply elem_of_list_In, in_map_iff in Hd as (y & [= _ <-] & _). done. }
      destruct (decide (c = CRun r)) as [->|Hn]; [left; eauto|]. right. split; [|done].
      intros r' ->. unfold run_calls in E6. symmetry in E6. destruct (s_ran s); cbn in E6;
      repeat (apply split_at in E6 as [(_ & Hx & _)|(?l & -> & E6)]; [try discriminate Hx; injection Hx as ->; done|]);
      match goal with H : ?l ++ _ :: _ = [] |- _ => by destruct l end.
  - destruct E4 as (r & E4 & E5 & E6 & E7 & E8 & E9). exists r. split; [done|]. split; [|done].
    rewrite (new_calls_app _ _ _ E6). unfold run_calls. by destruct (s_ran s).
Qed.

(** After every history of new objects, writes, deletions, loads by the engine and
    runs (of which some may have failed, see [may_raise]): a run that succeeds
    leaves the engine knowing exactly the objects of the session. *)
Theorem C58_in_sync {X} isW (K : methods X) x os s s' : quiet_methods isW K ->
  allowed_all isW (sim_run isW K) (sim_new x) (os ++ [SRun]) ->
  s = sruns isW (sim_run isW K) (sim_new x) os -> sim_run isW K s = (s', None) ->
  told ∅ (s_calls s') = wreg (s_w s') /\ wreg (s_w s') = wreg (s_w s).
Proof.
  intros HQ Ha Es E. apply allowed_app in Ha as [Ha1 [Ha2 _]]. rewrite <-Es in Ha2.
  assert (Hs : sinv_sim s). { rewrite Es. apply sinv_runs; [done| |done]. split; [apply sinv_new|done]. }
  destruct (sinv_run isW K s HQ Hs Ha2) as [_ H]. rewrite E in H. split; [by apply H|].
  apply run_spec in E as (_ & _ & E3 & _). by apply E3.
Qed.

(** ... and a write to an object is handed over by the next run that succeeds,
    unless the object was deleted meanwhile. *)
Theorem C58_writes_arrive {X} isW (K : methods X) x os1 u g os2 s s' : quiet_methods isW K ->
  allowed_all isW (sim_run isW K) (sim_new x) (os1 ++ SWrite u g :: os2) ->
  SRun ∉ os2 -> SDelete u ∉ os2 ->
  s = sruns isW (sim_run isW K) (sim_new x) (os1 ++ SWrite u g :: os2) -> sim_run isW K s = (s', None) ->
  exists r us, u ∈ us /\
    ((CInit r us, false) ∈ new_calls s s' \/ (CAdded r us, false) ∈ new_calls s s' \/ (CUpdated r us, false) ∈ new_calls s s').
Proof.
  intros HQ Ha H1 H2 Es E.
  assert (Hs : sinv_sim s). { rewrite Es. apply sinv_runs; [done| |done]. split; [apply sinv_new|done]. }
  apply allowed_app in Ha as [Ha1 [Ha2 _]]. set (s1 := sruns isW (sim_run isW K) (sim_new x) os1) in *.
  assert (Hs1 : sinv_sim s1). { apply sinv_runs; [done| |done]. split; [apply sinv_new|done]. }
  assert (Hu : u ∈ badd (ub (s_w s)) ∪ bupd (ub (s_w s))).
  { rewrite Es. unfold sruns. rewrite foldl_app. cbn [foldl]. fold (sruns isW (sim_run isW K) (sim_new x) os1). fold s1.
    apply (written_kept isW (sim_run isW K) u os2 (sstep isW (sim_run isW K) s1 (SWrite u g))); [|done..|].
    - rewrite cur_step by done. apply Hs1.
    - by apply written_write; [apply Hs1|]. }
  apply C58_run in E as (_ & r & _ & E & _). rewrite E. destruct Hs as [Hs Hr].
  destruct (s_ran s) eqn:Eran.
  - apply elem_of_union in Hu as [Hu|Hu]; exists r; eexists; (split; [exact Hu|]).
    + right. left. left.
    + right. right. right. left.
  - exists r, (badd (ub (s_w s))). split; [|left; left].
    destruct Hs as [_ _ _ _ _ H6 _]. rewrite Hr in H6 by done. clear -H6 Hu. set_solver.
Qed.

(** One call of save(): as [C58_run], but the changes are kept whatever raises. *)
Theorem C58_save {X} isW (K : methods X) s s' e : file_save isW K s = (s', e) ->
  cur (s_w s') = cur (s_w s) /\
  match e with
  | None => exists r, wroot (s_w s) = Some r /\
      new_calls s s' = [(COpen, false); (CAdded r (badd (ub (s_w s))), false); (CUpdated r (bupd (ub (s_w s))), false);
                        (CDeleted r (bdel (ub (s_w s))), false); (CSave, false); (CClose, false)] /\
      ub (s_w s') = no_bufs /\ expd (s_w s') = wreg (s_w s')
  | Some x => ub (s_w s') = ub (s_w s) /\
      ((new_calls s s' = [] /\ wroot (s_w s) = None) \/ (new_calls s s' = [(COpen, false)] /\ x = KeyError) \/
       (exists done c, new_calls s s' = done ++ [(c, true)] /\ (forall d b, (d, b) ∈ done -> b = false)))
  end.
Proof.
  intros E. apply save_spec in E as (E1 & E2 & _ & E3 & E4). split; [done|]. destruct e as [x|].
  - destruct E4 as (E4 & H). split; [done|]. destruct H as [(E5 & E6)|[(r & E6 & E5 & Ex)|(r & cs1 & c & cs2 & E5 & E6 & E7)]].
    + left. split; [|done]. apply new_calls_app. by rewrite E5, app_nil_r.
    + right. left. split; [|done]. by apply new_calls_app.
    + right. right. exists (map (fun c => (c, false)) cs1), c. split; [by apply new_calls_app|].
      intros d b Hd. apply elem_of_list_In, in_map_iff in Hd as (y & [= _ <-] & _). done.
  - destruct E4 as (r & E4 & E6 & E8 & E9). exists r. split; [done|]. split; [|done].
    by rewrite (new_calls_app _ _ _ E6).
Qed.

(** A save that succeeds, after every history in which only opening the file and
    _apply_added may have raised: the file knows exactly the session's objects. *)
Theorem C58_save_in_sync {X} isW (K : methods X) x os s s' : quiet_methods isW K ->
  allowed_all isW (file_save isW K) (sim_new x) (os ++ [SRun]) ->
  s = sruns isW (file_save isW K) (sim_new x) os -> file_save isW K s = (s', None) ->
  told ∅ (s_calls s') = wreg (s_w s') /\ wreg (s_w s') = wreg (s_w s).
Proof.
  intros HQ Ha Es E. apply allowed_app in Ha as [Ha1 [Ha2 _]]. rewrite <-Es in Ha2.
  assert (Hs : sinv s). { rewrite Es. apply sinv_saves; [done| |done]. apply sinv_new. }
  destruct (sinv_save isW K s HQ Hs Ha2) as [_ H]. rewrite E in H. split; [by apply H|].
  apply save_spec in E as (_ & _ & _ & E3 & _). by apply E3.
Qed.

(** ** Examples and refutations *)

(** Methods that do nothing, and raise in the calls (counted from 0) of [bad]. *)
Definition exK (bad : list nat) : methods nat := fun c x w => (S x, if decide (x ∈ bad) then ERaise else EDone).
Lemma exK_quiet isW bad : quiet_methods isW (exK bad).
Proof. intros c x w w'. unfold exK. simpl. by destruct (decide (x ∈ bad)). Qed.

Definition exRoot : sop := SStore 10%N {[ (10%N, TType 9%N) ]}.
Definition exObj (u : uid) : sop := SStore u {[ (u, TType 3%N) ]}.
Definition exOps : list sop :=
  [exRoot; exObj 21%N; SRun; SWrite 21%N ∅; exObj 22%N; SEngine (EUpdate 21%N EDone); SRun; SDelete 21%N; SRun;
   exObj 23%N; SWrite 22%N ∅; SExpire [22%N]].

(** Evaluating [allowed_all]. *)
Definition may_raiseb {X} (s : sim X) (c : call) : bool :=
  match c with CInit _ _ | CAdded _ _ | COpen => true | CRun _ => s_ran s | _ => false end.
Definition allowedb {X} (act : sim X -> sim X * option exn) (s : sim X) (o : sop) : bool :=
  match o with
  | SStore u _ => bool_decide (u ∉ wreg (s_w s)) && bool_decide (u ∉ bdel (ub (s_w s)))
  | SWrite u _ => bool_decide (u ∈ wreg (s_w s))
  | SDelete _ | SExpire _ => true
  | SEngine p => match p with EUpdate _ EDone => true | _ => false end
  | SRun => forallb (fun c : call * bool => negb (snd c) || may_raiseb s (fst c)) (new_calls s (fst (act s)))
  end.
Fixpoint allowed_allb {X} isW (act : sim X -> sim X * option exn) (s : sim X) (os : list sop) : bool :=
  match os with
  | [] => true
  | o :: os' => allowedb act s o && allowed_allb isW act (sstep isW act s o) os'
  end.
Lemma allowed_ok {X} isW act (os : list sop) : forall s : sim X, allowed_allb isW act s os = true -> allowed_all isW act s os.
Proof.
  induction os as [|o os IH]; intros s; [done|]. cbn [allowed_allb allowed_all]. intros [H1 H2]%andb_true_iff.
  split; [|by apply IH]. clear IH H2. destruct o as [u ts|u g|u|us|p|]; cbn [allowed allowedb] in *; [| |done|done| |].
  - apply andb_true_iff in H1 as [H1 H2]. split; by eapply bool_decide_eq_true_1.
  - by eapply bool_decide_eq_true_1.
  - destruct p as [| | |u p| | | | | | |]; try done. destruct p; try done. intros w. simpl. unfold notify_update.
    destruct (decide _); [done|]. destruct (decide _); [done|]. unfold set_cur_buf. by destruct (cur w).
  - intros c Hc. rewrite forallb_forall in H1. apply elem_of_list_In in Hc. specialize (H1 _ Hc). simpl in H1.
    destruct c; simpl in H1 |- *; done.
Qed.

Lemma fst_with {A B} (p : A * B) b : snd p = b -> p = (fst p, b).
Proof. by destruct p; simpl; intros ->. Qed.
Global Instance bufs_eq_dec : EqDecision bufs.
Proof. solve_decision. Defined.
Local Ltac by_dec := apply (bool_decide_unpack _); vm_compute; done.

(** The hypotheses are met: three runs, the second of which fails in _apply_added. *)
Example C58_example :
  let K := exK [2%nat] in let act := sim_run exW K in
  let s := sruns exW act (sim_new 0%nat) exOps in
  quiet_methods exW K /\ allowed_all exW act (sim_new 0%nat) (exOps ++ [SRun]) /\
  snd (act s) = None /\
  s_calls (fst (act s)) =
    [(CInit 10%N {[10%N; 21%N]}, false); (CRun 10%N, false);
     (CAdded 10%N {[22%N]}, true);
     (CAdded 10%N {[22%N]}, false); (CUpdated 10%N ∅, false); (CDeleted 10%N {[21%N]}, false); (CRun 10%N, false);
     (CAdded 10%N {[23%N]}, false); (CUpdated 10%N {[22%N]}, false); (CDeleted 10%N ∅, false); (CRun 10%N, false)].
Proof.
  split; [apply exK_quiet|]. split; [apply allowed_ok; vm_compute; reflexivity|].
  split; [vm_compute; reflexivity|by_dec].
Qed.
Example C58_save_example :
  let K := exK [2%nat; 8%nat] in let act := file_save exW K in
  let s := sruns exW act (sim_new 0%nat) [exRoot; exObj 21%N; SWrite 21%N ∅; exObj 22%N; SDelete 22%N] in
  quiet_methods exW K /\ allowed_all exW (file_save exW (exK [0%nat])) (sim_new 0%nat) (exOps ++ [SRun]) /\
  snd (act s) = Some MethodError /\ ub (s_w (fst (act s))) = Bufs {[10%N; 21%N]} ∅ ∅ /\
  s_calls (fst (act s)) = [(COpen, false); (CAdded 10%N {[10%N; 21%N]}, false); (CUpdated 10%N ∅, true)].
Proof.
  split; [apply exK_quiet|]. split; [apply allowed_ok; vm_compute; reflexivity|].
  split; [vm_compute; reflexivity|]. split; by_dec.
Qed.

(** Refuted: if _run raises in the first run, the engine was initialised, but the
    next run initialises it again with the objects added meanwhile only: a deletion
    in between is never handed over, nor is a write. *)
Theorem C58_failed_first_run_refuted :
  exists (K : methods nat), quiet_methods exW K /\ exists s s1 u,
    s = sruns exW (sim_run exW K) (sim_new 0%nat) [exRoot; exObj u; SRun; SDelete u] /\
    sim_run exW K s = (s1, None) /\ u ∉ wreg (s_w s1) /\ u ∈ told ∅ (s_calls s1) /\ ub (s_w s1) = no_bufs /\
    exists s2 s3, s2 = sruns exW (sim_run exW K) (sim_new 0%nat) [exRoot; exObj u; SRun; SWrite u ∅] /\
      sim_run exW K s2 = (s3, None) /\ ub (s_w s3) = no_bufs /\
      new_calls s2 s3 = [(CInit 10%N ∅, false); (CRun 10%N, false)].
Proof.
  exists (exK [1%nat]). split; [apply exK_quiet|].
  eexists _, (fst (sim_run exW (exK [1%nat]) (sruns exW (sim_run exW (exK [1%nat])) (sim_new 0%nat) [exRoot; exObj 21%N; SRun; SDelete 21%N]))), 21%N.
  split; [reflexivity|]. split; [apply fst_with; vm_compute; reflexivity|].
  split; [apply (bool_decide_unpack _); vm_compute; done|].
  split; [apply (bool_decide_unpack _); vm_compute; done|]. split; [by_dec|].
  eexists _, (fst (sim_run exW (exK [1%nat]) (sruns exW (sim_run exW (exK [1%nat])) (sim_new 0%nat) [exRoot; exObj 21%N; SRun; SWrite 21%N ∅]))).
  split; [reflexivity|]. split; [apply fst_with; vm_compute; reflexivity|]. split; by_dec.
Qed.

(** Refuted: if _apply_updated raises, _apply_added has already been carried out but
    its objects stay pending; deleting one of them then goes unnoticed. *)
Theorem C58_failed_update_refuted :
  exists (K : methods nat), quiet_methods exW K /\ exists s s1 u,
    s = sruns exW (sim_run exW K) (sim_new 0%nat) [exRoot; exObj 21%N; SRun; exObj u; SWrite 21%N ∅; SRun; SDelete u] /\
    sim_run exW K s = (s1, None) /\ u ∉ wreg (s_w s1) /\ u ∈ told ∅ (s_calls s1) /\ ub (s_w s1) = no_bufs.
Proof.
  exists (exK [3%nat]). split; [apply exK_quiet|].
  eexists _, (fst (sim_run exW (exK [3%nat]) (sruns exW (sim_run exW (exK [3%nat])) (sim_new 0%nat)
    [exRoot; exObj 21%N; SRun; exObj 22%N; SWrite 21%N ∅; SRun; SDelete 22%N]))), 22%N.
  split; [reflexivity|]. split; [apply fst_with; vm_compute; reflexivity|].
  split; [apply (bool_decide_unpack _); vm_compute; done|].
  split; [apply (bool_decide_unpack _); vm_compute; done|]. by_dec.
Qed.

(** Refuted: an object that is deleted, created again with the same uid and deleted
    again between two runs is never reported as deleted. *)
Theorem C58_recreated_refuted :
  exists s s1 u,
    s = sruns exW (sim_run exW (exK [])) (sim_new 0%nat) [exRoot; exObj u; SRun; SDelete u; exObj u; SDelete u] /\
    sim_run exW (exK []) s = (s1, None) /\ u ∉ wreg (s_w s1) /\ u ∈ told ∅ (s_calls s1) /\ ub (s_w s1) = no_bufs.
Proof.
  eexists _, (fst (sim_run exW (exK []) (sruns exW (sim_run exW (exK [])) (sim_new 0%nat)
    [exRoot; exObj 21%N; SRun; SDelete 21%N; exObj 21%N; SDelete 21%N]))), 21%N.
  split; [reflexivity|]. split; [apply fst_with; vm_compute; reflexivity|].
  split; [apply (bool_decide_unpack _); vm_compute; done|].
  split; [apply (bool_decide_unpack _); vm_compute; done|]. by_dec.
Qed.

(** Refuted: a save that raises does not close the file it has opened. *)
Theorem C58_save_left_open_refuted :
  exists s s' e, s = sruns exW (file_save exW (exK [1%nat])) (sim_new 0%nat) [exRoot] /\
    file_save exW (exK [1%nat]) s = (s', Some e) /\
    new_calls s s' = [(COpen, false); (CAdded 10%N {[10%N]}, true)].
Proof.
  eexists _, (fst (file_save exW (exK [1%nat]) (sruns exW (file_save exW (exK [1%nat])) (sim_new 0%nat) [exRoot]))), MethodError.
  split; [reflexivity|]. split; [apply fst_with; vm_compute; reflexivity|by_dec].
Qed.

Print Assumptions C58_run.
Print Assumptions C58_in_sync.
Print Assumptions C58_writes_arrive.
Print Assumptions C58_save.
Print Assumptions C58_save_in_sync.
Print Assumptions C58_example.
Print Assumptions C58_save_example.
Print Assumptions C58_failed_first_run_refuted.
Print Assumptions C58_failed_update_refuted.
Print Assumptions C58_recreated_refuted.
Print Assumptions C58_save_left_open_refuted.
