(** C77: the dummy simulation: who is how old and lives where after every history. *)
From Coq Require Import List NArith ZArith Bool Lia.
From Verif Require Import Prelude Dummy.
Import ListNotations.
Open Scope Z_scope.

(** ** Specification *)

(** The persons added before u. *)
Fixpoint earlier (u : N) (l : list (N * person)) : list (N * person) :=
  match l with
  | [] => []
  | x :: l' => if (fst x =? u)%N then [] else x :: earlier u l'
  end.
Definition smaller (n : name) (x : N * person) : bool := negb (name_le n (p_name (snd x))).
Definition same_name (n : name) (x : N * person) : bool :=
  name_le n (p_name (snd x)) && name_le (p_name (snd x)) n.
(** How many persons move to the city before the person u with name n: those with a
    smaller name and those with the same name added earlier. *)
Definition ahead (u : N) (n : name) (l : list (N * person)) : nat :=
  (length (filter (smaller n) l) + length (filter (same_name n) (earlier u l)))%nat.

(** The persons that take part: those that are parts of the wrapper. *)
Definition participants (s : dsess) : list (N * person) := filter (fun x => p_part (snd x)) (d_view s).

(** What the user sees of u after reading it. *)
Definition seen (u : N) (s : dsess) : option person := assoc u (d_view (d_read u s)).

(** Only reading and running. *)
Definition passive (o : dop) : Prop := match o with DRead _ | DRun => True | _ => False end.
Definition runs (os : list dop) : Z := Z.of_nat (length (filter (fun o => match o with DRun => true | _ => false end) os)).

(** ** The order of names *)
Lemma name_le_total a : forall b, name_le a b = true \/ name_le b a = true.
Proof.
  induction a as [|x a IH]; intros [|y b]; cbn; auto.
  destruct (N.ltb_spec x y); [auto|]. destruct (N.ltb_spec y x); [auto|]. apply IH.
Qed.
Lemma name_le_refl a : name_le a a = true.
Proof. destruct (name_le_total a a); assumption. Qed.
Lemma name_le_trans a : forall b c, name_le a b = true -> name_le b c = true -> name_le a c = true.
Proof.
  induction a as [|x a IH]; intros [|y b] [|z c]; cbn; try discriminate; auto.
  destruct (N.ltb_spec x y), (N.ltb_spec y z), (N.ltb_spec x z); auto; try lia; try discriminate;
    destruct (N.ltb_spec y x), (N.ltb_spec z y), (N.ltb_spec z x); intros; try lia; try discriminate.
  eapply IH; eassumption.
Qed.
Definition le (x y : N * person) : bool := name_le (p_name (snd x)) (p_name (snd y)).
Lemma nle_le x y : le x y = false -> le y x = true.
Proof. unfold le. destruct (name_le_total (p_name (snd x)) (p_name (snd y))); congruence. Qed.

Fixpoint sorted (l : list (N * person)) : Prop :=
  match l with [] => True | y :: l' => (forall z, In z l' -> le y z = true) /\ sorted l' end.

Lemma in_insert x l z : In z (insert x l) <-> z = x \/ In z l.
Proof.
  induction l as [|y l IH]; cbn; [intuition congruence|].
  destruct (name_le _ _); cbn; [intuition congruence|]. rewrite IH. intuition congruence.
Qed.
Lemma sorted_insert x l : sorted l -> sorted (insert x l).
Proof.
  induction l as [|y l IH]; cbn; [tauto|]. intros [H1 H2].
  destruct (name_le (p_name (snd x)) (p_name (snd y))) eqn:E; cbn.
  - split; [|tauto]. intros z [-> | Hz]; [exact E|]. eapply name_le_trans; [exact E|]. apply H1, Hz.
  - split; [|apply IH, H2]. intros z Hz. apply in_insert in Hz as [-> | Hz]; [apply nle_le, E|apply H1, Hz].
Qed.
Lemma sorted_sort l : sorted (sort l).
Proof. induction l; cbn; [exact I|]. apply sorted_insert. assumption. Qed.

Lemma count_insert f x l : length (filter f (insert x l)) = length (filter f (x :: l)).
Proof.
  induction l as [|y l IH]; [reflexivity|]. cbn [insert].
  destruct (name_le _ _); [reflexivity|]. cbn [filter] in *.
  destruct (f y), (f x); cbn [length] in *; lia.
Qed.
Lemma count_sort f l : length (filter f (sort l)) = length (filter f l).
Proof.
  induction l as [|x l IH]; [reflexivity|]. cbn [sort fold_right]. rewrite count_insert. cbn [filter].
  change (fold_right insert [] l) with (sort l). destruct (f x); cbn; lia.
Qed.

Lemma filter_none {A} (f : A -> bool) l : (forall z, In z l -> f z = false) -> filter f l = [].
Proof.
  induction l as [|y l IH]; cbn; intros H; [reflexivity|]. rewrite (H y) by auto. apply IH. auto.
Qed.

Lemma nth_insert_new x l : sorted l ->
  nth_error (insert x l) (length (filter (smaller (p_name (snd x))) l)) = Some x.
Proof.
  induction l as [|y l IH]; [reflexivity|]. cbn [insert sorted]. intros [H1 H2].
  destruct (name_le (p_name (snd x)) (p_name (snd y))) eqn:E.
  - rewrite filter_none; [reflexivity|]. intros z [<- | Hz]; unfold smaller; apply negb_false_iff.
    + exact E.
    + eapply name_le_trans; [exact E|]. apply H1, Hz.
  - cbn [filter]. unfold smaller at 1. rewrite E. cbn. apply IH, H2.
Qed.
Lemma nth_insert_old x l : sorted l -> forall i z, nth_error l i = Some z ->
  nth_error (insert x l) (i + if le x z then 1 else 0)%nat = Some z.
Proof.
  induction l as [|y l IH]; [intros _ [|i] z; discriminate|]. cbn [insert sorted]. intros [H1 H2] i z Hi.
  destruct (name_le (p_name (snd x)) (p_name (snd y))) eqn:E.
  - assert (Hz : le x z = true).
    { destruct i as [|i]; cbn in Hi; [injection Hi as <-; exact E|].
      eapply name_le_trans; [exact E|]. apply H1. eapply nth_error_In; eassumption. }
    rewrite Hz, Nat.add_comm. exact Hi.
  - destruct i as [|i]; cbn in Hi.
    + injection Hi as <-. change (le x y = false) in E. rewrite E. reflexivity.
    + cbn. apply IH; assumption.
Qed.

Lemma nth_sort l : NoDup (map fst l) -> forall u p, In (u, p) l ->
  nth_error (sort l) (ahead u (p_name p) l) = Some (u, p).
Proof.
  induction l as [|x l IH]; [intros _ u p []|]. cbn [map]. intros ND u p Hin.
  apply NoDup_cons_iff in ND as [Hx ND]. cbn [sort fold_right]. change (fold_right insert [] l) with (sort l).
  unfold ahead. cbn [filter earlier]. destruct Hin as [-> | Hin].
  - cbn [fst]. rewrite N.eqb_refl. unfold smaller at 1. cbn [snd]. rewrite name_le_refl. cbn [negb filter length].
    rewrite Nat.add_0_r, <- count_sort. apply (nth_insert_new (u, p)), sorted_sort.
  - assert (Hne : (fst x =? u)%N = false).
    { apply N.eqb_neq. intros E. apply Hx. rewrite E. apply (in_map fst) in Hin. exact Hin. }
    rewrite Hne. specialize (IH ND u p Hin). apply (nth_insert_old x) in IH; [|apply sorted_sort].
    rewrite <- IH. f_equal. unfold ahead, le. cbn [snd filter].
    unfold smaller at 1, same_name at 1.
    destruct (name_le (p_name p) (p_name (snd x))) eqn:E1; cbn [negb andb length];
      destruct (name_le (p_name (snd x)) (p_name p)) eqn:E2; cbn [length]; try lia.
    destruct (name_le_total (p_name p) (p_name (snd x))); congruence.
Qed.

(** ** Dictionaries *)
Lemma assoc_in {A} u (l : list (N * A)) a : assoc u l = Some a -> In (u, a) l.
Proof.
  induction l as [|[v b] l IH]; cbn; [discriminate|].
  destruct (N.eqb_spec v u) as [->|]; [intros [= ->]; auto|auto].
Qed.
Lemma in_assoc {A} u (l : list (N * A)) a : NoDup (map fst l) -> In (u, a) l -> assoc u l = Some a.
Proof.
  induction l as [|[v b] l IH]; cbn; [tauto|]. intros ND [[= -> ->] | H].
  - rewrite N.eqb_refl. reflexivity.
  - apply NoDup_cons_iff in ND as [Hv ND]. destruct (N.eqb_spec v u) as [->|]; [|auto].
    destruct Hv. apply (in_map fst) in H. exact H.
Qed.
Lemma assoc_put {A} u v (a : A) l : assoc u (put v a l) =
  if (v =? u)%N then match assoc u l with Some _ => Some a | None => None end else assoc u l.
Proof.
  unfold put. induction l as [|[w b] l IH]; cbn; [destruct (v =? u)%N; reflexivity|].
  destruct (N.eqb_spec w v) as [->|Hwv]; cbn.
  - destruct (N.eqb_spec v u); [reflexivity|]. rewrite IH. reflexivity.
  - destruct (N.eqb_spec w u) as [->|Hwu].
    + destruct (N.eqb_spec v u); [congruence|reflexivity].
    + rewrite IH. destruct (v =? u)%N; reflexivity.
Qed.
Lemma keys_put {A} v (a : A) l : map fst (put v a l) = map fst l.
Proof.
  unfold put. rewrite map_map. apply map_ext. intros [w b]. cbn. destruct (N.eqb_spec w v); [subst|]; reflexivity.
Qed.
Lemma mem_in u l : mem u l = true <-> In u l.
Proof.
  unfold mem. rewrite existsb_exists. split.
  - intros (x & H & E). apply N.eqb_eq in E as ->. exact H.
  - intros H. exists u. split; [exact H|apply N.eqb_refl].
Qed.
Lemma mem_drop u v l : mem u (drop_uid v l) = mem u l && negb (u =? v)%N.
Proof.
  unfold mem, drop_uid. induction l as [|w l IH]; cbn; [reflexivity|].
  destruct (N.eqb_spec w v) as [->|]; cbn; rewrite IH.
  - destruct (u =? v)%N, (existsb (N.eqb u) l); reflexivity.
  - destruct (N.eqb_spec u w) as [->|]; cbn; [|reflexivity]. destruct (N.eqb_spec w v); [congruence|reflexivity].
Qed.

(** ** Starting the simulation *)
Lemma add_persons l : forall e, fold_left add_person l e =
  (fst e ++ map (fun x => (p_name (snd x), p_age (snd x))) l,
   snd e ++ combine (map fst l) (seq (length (fst e)) (length l))).
Proof.
  induction l as [|x l IH]; intros [P M]; cbn [fold_left fst snd]; [rewrite !app_nil_r; reflexivity|].
  rewrite IH. unfold add_person. cbn [fst snd]. rewrite app_length. cbn [length map seq combine].
  rewrite <- !app_assoc, Nat.add_1_r. reflexivity.
Qed.
Lemma assoc_combine l : NoDup (map fst l) -> forall i j u (p : person), nth_error l i = Some (u, p) ->
  assoc u (combine (map fst l) (seq j (length l))) = Some (j + i)%nat.
Proof.
  induction l as [|x l IH]; [intros _ [|i]; discriminate|]. cbn [map]. intros ND i j u p Hi.
  apply NoDup_cons_iff in ND as [Hx ND]. cbn. destruct i as [|i]; cbn in Hi.
  - injection Hi as ->. cbn. rewrite N.eqb_refl, Nat.add_0_r. reflexivity.
  - assert (Hu : In (u, p) l) by (eapply nth_error_In; eassumption).
    destruct (N.eqb_spec (fst x) u) as [E|_]; [destruct Hx; rewrite E; apply (in_map fst) in Hu; exact Hu|].
    rewrite (IH ND _ _ _ _ Hi). f_equal. lia.
Qed.
Lemma combine_keys l : forall j u n, In (u, n) (combine (map fst l) (seq j (@length (N * person) l))) -> In u (map fst l).
Proof. intros j u n H. apply in_combine_l in H. exact H. Qed.
Lemma sort_in l z : In z (sort l) <-> In z l.
Proof.
  induction l as [|x l IH]; cbn; [tauto|]. change (fold_right insert [] l) with (sort l).
  rewrite in_insert, IH. intuition congruence.
Qed.
Lemma nodup_insert x l : NoDup (map fst (x :: l)) -> NoDup (map fst (insert x l)).
Proof.
  induction l as [|y l IH]; [auto|]. cbn [insert]. intros ND. destruct (name_le _ _); [exact ND|].
  cbn [map] in *. apply NoDup_cons_iff in ND as [H1 ND]. apply NoDup_cons_iff in ND as [H2 ND].
  constructor; [|apply IH; constructor; [cbn in H1; tauto|exact ND]].
  rewrite in_map_iff. intros (z & E & Hz). apply in_insert in Hz as [-> | Hz].
  - apply H1. rewrite E. left. reflexivity.
  - apply H2. rewrite <- E. apply in_map, Hz.
Qed.
Lemma nodup_sort l : NoDup (map fst l) -> NoDup (map fst (sort l)).
Proof.
  induction l as [|x l IH]; [auto|]. intros ND. cbn [sort fold_right]. change (fold_right insert [] l) with (sort l).
  apply nodup_insert. cbn [map] in *. apply NoDup_cons_iff in ND as [H ND]. constructor; [|apply IH, ND].
  rewrite in_map_iff. intros (z & E & Hz). apply (proj1 (sort_in l z)) in Hz. apply H. rewrite <- E. apply in_map, Hz.
Qed.
Lemma nodup_filter {A} f (l : list (N * A)) : NoDup (map fst l) -> NoDup (map fst (filter f l)).
Proof.
  induction l as [|x l IH]; [auto|]. cbn. intros ND. apply NoDup_cons_iff in ND as [H ND].
  destruct (f x); [|auto]. cbn. constructor; [|auto]. rewrite in_map_iff. intros (z & E & Hz).
  apply H. rewrite <- E. apply in_map. apply filter_In in Hz. tauto.
Qed.

(** ** Before the first run *)
Definition fresh (s : dsess) : Prop :=
  d_ran s = false /\ d_persons s = [] /\ d_i s = 0 /\ d_map s = [] /\ d_expired s = [] /\
  d_added s = map fst (d_view s) /\ d_changed s = false /\ NoDup (map fst (d_view s)) /\
  (forall u p, In (u, p) (d_view s) -> p_citizen p = false).

Lemma nodup_snoc (l : list N) u : NoDup l -> ~ In u l -> NoDup (l ++ [u]).
Proof.
  intros H Hu. induction l as [|x l IH]; cbn; [constructor; [tauto|constructor]|].
  apply NoDup_cons_iff in H as [Hx H]. constructor.
  - rewrite in_app_iff. cbn. intros [?|[?|[]]]; [tauto|]. apply Hu. left. congruence.
  - apply IH; [exact H|]. intros ?. apply Hu. right. assumption.
Qed.
Lemma filter_keys u (l : list (N * person)) :
  map fst (filter (fun e => negb (fst e =? u)%N) l) = drop_uid u (map fst l).
Proof. induction l as [|x l IH]; cbn; [reflexivity|]. destruct (fst x =? u)%N; cbn; [exact IH|f_equal; exact IH]. Qed.

Lemma fresh_step s o : fresh s -> o <> DRun -> fresh (d_step s o).
Proof.
  intros (A & B & C & D & E & F & G & H & I) Ho.
  assert (R : forall u, d_read u s = s) by (intros u; unfold d_read; rewrite E; reflexivity).
  destruct o as [u n a part|u n a|u|k|u|]; cbn [d_step].
  - destruct (mem u (map fst (d_view s))) eqn:M; [repeat split; assumption|].
    assert (Hu : ~ In u (map fst (d_view s))) by (rewrite <- mem_in; congruence).
    unfold fresh. cbn. rewrite A, B, C, D, E, F, G, map_app. cbn. repeat split; try reflexivity.
    + apply nodup_snoc; assumption.
    + intros v p Hin. apply in_app_iff in Hin as [Hin | [[= <- <-] | []]]; [eapply I; exact Hin|reflexivity].
  - rewrite R. destruct (assoc u (d_view s)) as [p|] eqn:Eu; [|repeat split; assumption].
    apply assoc_in in Eu as Hin. unfold fresh. cbn. rewrite A, B, C, D, E, F, G, keys_put. cbn.
    assert (M : mem u (map fst (d_view s)) = true) by (apply mem_in; apply (in_map fst) in Hin; exact Hin).
    rewrite M. repeat split; try reflexivity; try assumption.
    intros v q Hq. apply in_assoc in Hq; [|rewrite keys_put; exact H]. rewrite assoc_put in Hq.
    destruct (N.eqb_spec u v) as [->|]; [|apply assoc_in in Hq; eapply I; exact Hq].
    rewrite Eu in Hq. injection Hq as <-. cbn. eapply I; exact Hin.
  - destruct (assoc u (d_view s)) as [p|] eqn:Eu; [|repeat split; assumption].
    apply assoc_in in Eu as Hin. unfold fresh. cbn. rewrite A, B, C, D, E, F, G, filter_keys. cbn.
    assert (M : mem u (map fst (d_view s)) = true) by (apply mem_in; apply (in_map fst) in Hin; exact Hin).
    rewrite M. repeat split; try reflexivity.
    + rewrite <- filter_keys. apply nodup_filter, H.
    + intros v q Hq. apply filter_In in Hq as [Hq _]. eapply I; exact Hq.
  - unfold fresh. cbn. rewrite A, G. repeat split; assumption.
  - rewrite R. repeat split; assumption.
  - congruence.
Qed.

Lemma run_ran s s' : d_run s = (s', None) -> d_ran s' = true.
Proof. unfold d_run. destruct (_ && _); [discriminate|]. intros [= <-]. reflexivity. Qed.
Lemma ran_step s o : d_ran s = true -> d_ran (d_step s o) = true.
Proof.
  assert (R : forall u s, d_ran (d_read u s) = d_ran s) by (intros u s0; unfold d_read; destruct (mem _ _); reflexivity).
  intros H. destruct o as [u n a part|u n a|u|k|u|]; cbn [d_step].
  - destruct (mem _ _); [exact H|exact H].
  - destruct (assoc _ _); [exact (eq_trans (R u s) H)|rewrite R; exact H].
  - destruct (assoc _ _); exact H.
  - exact H.
  - rewrite R. exact H.
  - unfold d_run. destruct (_ && _); [exact H|reflexivity].
Qed.
Lemma history os : forall s, fresh s \/ d_ran s = true -> fresh (d_exec s os) \/ d_ran (d_exec s os) = true.
Proof.
  induction os as [|o os IH]; intros s Hs; [exact Hs|]. cbn. apply IH. destruct Hs as [Hs|Hs]; [|right; apply ran_step, Hs].
  destruct o; try (left; apply fresh_step; [exact Hs|discriminate]). right. cbn.
  unfold d_run. destruct Hs as (A & _). rewrite A. reflexivity.
Qed.
Lemma fresh_new k : fresh (d_new k).
Proof. repeat split. constructor. intros u p []. Qed.

(** ** After m runs *)
Definition state_of (p : person) (idx : nat) (t : Z) : person :=
  Pers (p_name p) (p_age p + t) (negb (Z.of_nat idx <? t)) (Z.of_nat idx <? t).

Definition running (s0 : dsess) (m : Z) (s : dsess) : Prop :=
  let k := d_steps s0 in let L := sort (participants s0) in
  d_ran s = true /\ d_added s = [] /\ d_changed s = false /\ d_steps s = k /\
  d_persons s = map (fun x => (p_name (snd x), p_age (snd x) + m * k)) L /\ d_i s = m * k /\
  d_map s = combine (map fst L) (seq 0 (length L)) /\
  forall u p0, In (u, p0) (d_view s0) -> exists p, assoc u (d_view s) = Some p /\
    if p_part p0 then
      let idx := ahead u (p_name p0) (participants s0) in
      p_name p = p_name p0 /\ p_part p = negb (p_citizen p) /\
      (p_citizen p = true -> Z.of_nat idx < m * k) /\
      (mem u (d_expired s) = false -> p = state_of p0 idx (m * k))
    else p = p0.

Lemma participant s0 u p : fresh s0 -> In (u, p) (d_view s0) -> p_part p = true ->
  nth_error (sort (participants s0)) (ahead u (p_name p) (participants s0)) = Some (u, p).
Proof.
  intros F Hin Hp. apply nth_sort.
  - apply nodup_filter. apply F.
  - apply filter_In. split; [exact Hin|exact Hp].
Qed.
Lemma in_map_of s0 u p : fresh s0 -> In (u, p) (d_view s0) -> p_part p = true ->
  assoc u (combine (map fst (sort (participants s0))) (seq 0 (length (sort (participants s0)))))
  = Some (ahead u (p_name p) (participants s0)).
Proof.
  intros F Hin Hp. assert (ND : NoDup (map fst (participants s0))) by (apply nodup_filter; apply F).
  apply (assoc_combine _ (nodup_sort _ ND) _ 0%nat _ _ (participant _ _ _ F Hin Hp)).
Qed.
Lemma not_in_map_of s0 u p : fresh s0 -> In (u, p) (d_view s0) -> p_part p = false ->
  assoc u (combine (map fst (sort (participants s0))) (seq 0 (length (sort (participants s0))))) = None.
Proof.
  intros F Hin Hp. destruct (assoc u _) as [n|] eqn:E; [|reflexivity]. exfalso.
  apply assoc_in, combine_keys, in_map_iff in E as ((v & q) & Ev & Hq). cbn in Ev. subst v.
  apply (proj1 (sort_in _ _)) in Hq. apply filter_In in Hq as [Hq Hpart].
  assert (ND : NoDup (map fst (d_view s0))) by apply F.
  apply (in_assoc _ _ _ ND) in Hq. apply (in_assoc _ _ _ ND) in Hin. rewrite Hin in Hq. injection Hq as <-.
  cbn in Hpart. congruence.
Qed.

Lemma run_start s0 : fresh s0 -> running s0 1 (fst (d_run s0)) /\ snd (d_run s0) = None.
Proof.
  intros F. destruct F as (A & B & C & D & E & Fa & G & H & I) eqn:EF. clear EF.
  unfold d_run. rewrite A. cbn [andb fst snd]. split; [|reflexivity].
  assert (EL : filter (fun x => p_part (snd x) && mem (fst x) (d_added s0)) (d_view s0) = participants s0).
  { unfold participants. apply filter_ext_in. intros [u p] Hin. cbn.
    assert (M : mem u (d_added s0) = true) by (rewrite Fa; apply mem_in; apply (in_map fst) in Hin; exact Hin).
    rewrite M, andb_true_r. reflexivity. }
  unfold running, apply_added, simulate. cbn [d_ran d_added d_changed d_steps d_persons d_i d_map d_view d_expired].
  rewrite EL, add_persons, B, C, D. cbn [fst snd app length].
  split; [reflexivity|]. split; [reflexivity|]. split; [reflexivity|]. split; [reflexivity|].
  split; [rewrite map_map; apply map_ext; intros x; cbn [fst snd]; f_equal; lia|]. split; [lia|]. split; [reflexivity|].
  intros u p0 Hin. exists p0. split; [apply in_assoc; assumption|].
  destruct (p_part p0) eqn:Hp; [|reflexivity]. cbn zeta. split; [reflexivity|].
  rewrite (I _ _ Hin). split; [reflexivity|]. split; [discriminate|].
  intros M. assert (M' : mem u (map fst (d_view s0)) = true) by (apply mem_in; apply (in_map fst) in Hin; exact Hin). congruence.
Qed.

Lemma run_again s0 m s : fresh s0 -> 1 <= m -> running s0 m s ->
  running s0 (m + 1) (fst (d_run s)) /\ snd (d_run s) = None.
Proof.
  intros F Hm (A & B & C & D & E & G & H & I). unfold d_run. rewrite A, B, C. cbn [andb orb negb fst snd].
  split; [|reflexivity]. unfold running, simulate. cbn [d_ran d_added d_changed d_steps d_persons d_i d_map d_view d_expired].
  rewrite D, E, G, H. split; [reflexivity|]. split; [reflexivity|]. split; [reflexivity|]. split; [reflexivity|].
  split; [rewrite map_map; apply map_ext; intros x; cbn [fst snd]; f_equal; lia|]. split; [lia|]. split; [reflexivity|].
  intros u p0 Hin. destruct (I u p0 Hin) as (p & Hu & Hp). exists p. split; [exact Hu|].
  destruct (p_part p0); [|exact Hp]. cbn zeta in *. destruct Hp as (P1 & P2 & P3 & P4).
  split; [exact P1|]. split; [exact P2|]. split; [intros Hc; specialize (P3 Hc)|].
  { pose proof (Zle_0_nat (ahead u (p_name p0) (participants s0))) as Hn.
    assert (Hk : 0 < d_steps s0) by (apply Z.mul_pos_cancel_l with m; lia). lia. }
  intros M. assert (M' : mem u (map fst (d_view s)) = true) by (apply mem_in; apply assoc_in, (in_map fst) in Hu; exact Hu).
  congruence.
Qed.

Lemma read_running s0 m s v : fresh s0 -> running s0 m s -> running s0 m (d_read v s).
Proof.
  intros F (A & B & C & D & E & G & H & I). unfold d_read. destruct (mem v (d_expired s)) eqn:M;
    [|repeat split; assumption].
  unfold running. cbn [d_ran d_added d_changed d_steps d_persons d_i d_map d_view d_expired].
  do 7 (split; [assumption|]). intros u p0 Hin. destruct (I u p0 Hin) as (p & Hu & Hp). rewrite H.
  destruct (N.eqb_spec v u) as [->|Hvu].
  - destruct (p_part p0) eqn:Hpart.
    + rewrite (in_map_of _ _ _ F Hin Hpart), Hu, assoc_put, N.eqb_refl, Hu. eexists. split; [reflexivity|].
      cbn zeta in *. destruct Hp as (P1 & P2 & P3 & P4). set (idx := ahead u (p_name p0) (participants s0)) in *.
      assert (EL : load_person s u idx p = state_of p0 idx (m * d_steps s0)).
      { unfold load_person. rewrite E, nth_error_map. unfold idx at 1. rewrite (participant _ _ _ F Hin Hpart). cbn.
        rewrite G. unfold state_of. fold idx. destruct (p_citizen p) eqn:Hc.
        - specialize (P3 eq_refl). apply Z.ltb_lt in P3. rewrite P3, P1, P2. reflexivity.
        - destruct (Z.of_nat idx <? m * d_steps s0); [reflexivity|]. rewrite P1, P2. reflexivity. }
      rewrite EL. cbn. split; [reflexivity|]. split; [reflexivity|]. split; [apply Z.ltb_lt|reflexivity].
    + rewrite (not_in_map_of _ _ _ F Hin Hpart). exists p. split; [exact Hu|exact Hp].
  - exists p. split.
    { destruct (assoc v _) as [i|]; [|exact Hu]. destruct (assoc v (d_view s)) as [q|]; [|exact Hu].
      rewrite assoc_put. destruct (N.eqb_spec v u); [congruence|exact Hu]. }
    destruct (p_part p0); [|exact Hp]. cbn zeta in *. destruct Hp as (P1 & P2 & P3 & P4).
    do 3 (split; [assumption|]). intros M'. apply P4. rewrite mem_drop in M'.
    destruct (N.eqb_spec u v); [congruence|]. rewrite andb_true_r in M'. exact M'.
Qed.

Lemma exec_running s0 : fresh s0 -> forall os m s, Forall passive os -> 1 <= m -> running s0 m s ->
  running s0 (m + runs os) (d_exec s os).
Proof.
  intros F os. induction os as [|o os IH]; intros m s Hos Hm Hs.
  - unfold runs. cbn. rewrite Z.add_0_r. exact Hs.
  - apply Forall_cons_iff in Hos as [Ho Hos]. cbn [d_exec fold_left].
    destruct o as [| | | |v|]; try destruct Ho; cbn [d_step].
    + exact (IH m _ Hos Hm (read_running _ _ _ v F Hs)).
    + pose proof (IH (m + 1) _ Hos ltac:(lia) (proj1 (run_again _ _ _ F Hm Hs))) as R.
      replace (m + runs (DRun :: os)) with (m + 1 + runs os); [exact R|]. unfold runs. cbn [filter length]. lia.
Qed.

(** ** Theorems *)

(** s0 is any state the user reaches without running; then only runs and reads, in
    any order and number.  With t the steps simulated so far: every participant is t
    older, and has moved to the city iff fewer than t participants are ahead. *)
Theorem C77_simulation : forall k setup os u p,
  let s0 := d_exec (d_new k) setup in
  d_ran s0 = false -> Forall passive os -> In (u, p) (d_view s0) ->
  let s := d_exec s0 (DRun :: os) in
  let t := runs (DRun :: os) * d_steps s0 in
  let moved := Z.of_nat (ahead u (p_name p) (participants s0)) <? t in
  seen u s = Some (if p_part p then Pers (p_name p) (p_age p + t) (negb moved) moved else p).
Proof.
  intros k setup os u p s0 Hr Hos Hin s t moved.
  assert (F : fresh s0).
  { destruct (history setup (d_new k) (or_introl (fresh_new k))) as [F|F]; [exact F|]. fold s0 in F. congruence. }
  pose proof (exec_running s0 F os 1 _ Hos ltac:(lia) (proj1 (run_start s0 F))) as R.
  change (d_exec (fst (d_run s0)) os) with s in R. apply (read_running _ _ _ u F) in R.
  assert (Et : (1 + runs os) * d_steps s0 = t) by (unfold t, runs; cbn [filter length]; lia).
  assert (M : mem u (d_expired (d_read u s)) = false).
  { unfold d_read. destruct (mem u (d_expired s)) eqn:M; [|exact M]. cbn [d_expired]. rewrite mem_drop, N.eqb_refl, andb_false_r. reflexivity. }
  destruct R as (_ & _ & _ & _ & _ & _ & _ & R). destruct (R u p Hin) as (q & Hq & Hp).
  unfold seen. rewrite Hq. f_equal. destruct (p_part p); [|exact Hp].
  cbn zeta in Hp. destruct Hp as (_ & _ & _ & P). rewrite (P M), Et. reflexivity.
Qed.

(** All these runs succeed. *)
Theorem C77_runs_succeed : forall k setup os,
  let s0 := d_exec (d_new k) setup in
  d_ran s0 = false -> Forall passive os ->
  snd (d_run s0) = None /\ snd (d_run (d_exec s0 (DRun :: os))) = None.
Proof.
  intros k setup os s0 Hr Hos.
  assert (F : fresh s0).
  { destruct (history setup (d_new k) (or_introl (fresh_new k))) as [F|F]; [exact F|]. fold s0 in F. congruence. }
  split; [apply (run_start s0 F)|].
  pose proof (exec_running s0 F os 1 _ Hos ltac:(lia) (proj1 (run_start s0 F))) as R.
  assert (H1 : 1 <= 1 + runs os) by (unfold runs; lia). exact (proj2 (run_again _ _ _ F H1 R)).
Qed.

(** What the user may do to participants once the simulation has run. *)
Definition tampers (s : dsess) (o : dop) : Prop :=
  match o with
  | DAdd u _ _ part => part = true /\ assoc u (d_view s) = None
  | DWrite u _ _ | DDelete u => assoc u (d_view s) <> None
  | DSteps _ => True
  | _ => False
  end.

(** A change after the first run makes this and every later run fail, without any
    effect: the engine, and whatever the user sees, stay as they are. *)
Theorem C77_no_changes_after_start : forall k os o os',
  let s := d_exec (d_new k) os in
  d_ran s = true -> d_added s = [] -> tampers s o ->
  let s' := d_exec s (o :: os') in
  d_run s' = (s', Some RuntimeError) /\ d_persons s' = d_persons s /\ d_i s' = d_i s.
Proof.
  intros k os o os' s Hr Ha Ht s'.
  assert (KEEP : forall os x, d_ran x = true -> d_changed x = true ->
            d_ran (d_exec x os) = true /\ d_changed (d_exec x os) = true /\
            d_persons (d_exec x os) = d_persons x /\ d_i (d_exec x os) = d_i x).
  { clear. induction os as [|o os IH]; intros x H1 H2; [auto|]. cbn [d_exec fold_left].
    assert (S : d_ran (d_step x o) = true /\ d_changed (d_step x o) = true /\
                d_persons (d_step x o) = d_persons x /\ d_i (d_step x o) = d_i x).
    { split; [apply ran_step, H1|].
      assert (R : forall u, d_changed (d_read u x) = d_changed x /\ d_persons (d_read u x) = d_persons x /\ d_i (d_read u x) = d_i x)
        by (intros u; unfold d_read; destruct (mem _ _); auto).
      destruct o as [u n a part|u n a|u|k|u|]; cbn [d_step].
      - destruct (mem _ _); cbn; [auto|]. rewrite H2. auto.
      - destruct (R u) as (R1 & R2 & R3). destruct (assoc _ _); cbn; [|rewrite R1; auto]. rewrite R1, H2. auto.
      - destruct (assoc _ _); cbn; [|auto]. rewrite H2. auto.
      - cbn. rewrite H2. auto.
      - destruct (R u) as (R1 & R2 & R3). rewrite R1. auto.
      - unfold d_run. rewrite H1, H2, orb_true_r. cbn. auto. }
    destruct S as (S1 & S2 & S3 & S4). destruct (IH _ S1 S2) as (I1 & I2 & I3 & I4).
    unfold d_exec in *. rewrite I3, I4. auto. }
  assert (S : d_changed (d_step s o) = true /\ d_persons (d_step s o) = d_persons s /\ d_i (d_step s o) = d_i s).
  { assert (R : forall u, d_persons (d_read u s) = d_persons s /\ d_i (d_read u s) = d_i s /\ d_added (d_read u s) = d_added s)
      by (intros u; unfold d_read; destruct (mem _ _); auto).
    destruct o as [u n a part|u n a|u|k'|u|]; cbn [d_step tampers] in *.
    - destruct Ht as [-> Ht]. destruct (mem u (map fst (d_view s))) eqn:M.
      { apply mem_in, in_map_iff in M as ((v & q) & E & Hin). cbn in E. subst v. exfalso. revert Ht Hin. clear.
        induction (d_view s) as [|[v b] l IH]; cbn; [tauto|]. destruct (N.eqb_spec v u); [discriminate|].
        intros H [[= -> _] | Hin]; [congruence|auto]. }
      cbn. rewrite Hr, orb_true_r. auto.
    - destruct (R u) as (R1 & R2 & R3). destruct (assoc u (d_view (d_read u s))) eqn:E.
      + cbn. rewrite R3, Ha. cbn. rewrite orb_true_r. auto.
      + exfalso. apply Ht. revert E. unfold d_read. destruct (mem _ _); [|auto]. cbn.
        destruct (assoc u (d_map s)); [|auto]. destruct (assoc u (d_view s)) eqn:E2; [|auto].
        rewrite assoc_put, N.eqb_refl, E2. discriminate.
    - destruct (assoc u (d_view s)); [|congruence]. cbn. rewrite Ha. cbn. rewrite orb_true_r. auto.
    - cbn. rewrite Hr, orb_true_r. auto.
    - destruct Ht.
    - destruct Ht. }
  destruct S as (S1 & S2 & S3). destruct (KEEP os' (d_step s o) (ran_step _ _ Hr) S1) as (K1 & K2 & K3 & K4).
  change (d_exec (d_step s o) os') with s' in *.
  split; [|rewrite K3, K4; auto]. unfold d_run. rewrite K1, K2, orb_true_r. reflexivity.
Qed.

(** Three participants named b, a, a and one person that is not a part of the
    wrapper; two steps per run.  After one run the two named a have moved; after
    another one all three; reading in between or not makes no difference. *)
Definition ex_setup : list dop :=
  [DAdd 1 [98%N] 30 true; DAdd 2 [97%N] 40 true; DAdd 3 [97%N] 50 true; DAdd 4 [97%N] 60 false;
   DAdd 5 [97%N] 70 true; DDelete 5; DWrite 3 [97%N] 51]%N.
Example C77_example :
  let s0 := d_exec (d_new 2) ex_setup in
  let s1 := d_exec s0 [DRun] in
  d_ran s0 = false /\
  map (fun u => seen u s1) [1; 2; 3; 4]%N =
    [Some (Pers [98%N] 32 true false); Some (Pers [97%N] 42 false true); Some (Pers [97%N] 53 false true);
     Some (Pers [97%N] 60 false false)] /\
  seen 1 (d_exec s1 [DRead 2%N; DRun]) = Some (Pers [98%N] 34 false true) /\
  seen 2 (d_exec s1 [DRead 1%N; DRun]) = Some (Pers [97%N] 44 false true) /\
  snd (d_run (d_exec s1 [DWrite 2 [97%N] 20])) = Some RuntimeError.
Proof. vm_compute. repeat split. Qed.

Print Assumptions C77_simulation.
Print Assumptions C77_runs_succeed.
Print Assumptions C77_no_changes_after_start.
