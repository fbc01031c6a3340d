(** Theorems about adding and updating with objects of another session (C19-C21). *)
From stdpp Require Import base list gmap countable.
From Verif Require Import Prelude Cuds CudsProofs CudsX CudsXProofs CudsXStep CudsXLoop PropCuds.
Local Open Scope N_scope.

(** * C19: the source session is left alone *)

(** Whatever add() does, returning or raising, only the session of the object it is
    called on changes. *)
Theorem C19_add_frame O mk w a r bs k : k <> o_sid a -> fst (x_add O mk w a r bs) k = w k.
Proof. intros Hk. by apply x_add_same. Qed.
Theorem C19_update_frame O mk w a bs k : k <> o_sid a -> fst (x_update O mk w a bs) k = w k.
Proof. intros Hk. by apply x_update_same. Qed.

(** * C20, C21: what is copied *)

(** add() and update() end, for any source and target graphs. *)
Theorem C20_add_terminates O mk w a r bs : (forall c kw, mk c kw <> Err OutOfFuel) -> snd (x_add O mk w a r bs) <> Err OutOfFuel.
Proof. intros Hm. by apply x_add_fuel. Qed.
Theorem C20_update_terminates O mk w a bs : (forall c kw, mk c kw <> Err OutOfFuel) -> snd (x_update O mk w a bs) <> Err OutOfFuel.
Proof.
  intros Hm. unfold x_update.
  assert (get O (w (o_sid a)) (o_uid a) (map o_uid bs) (Some (o_active O)) None <> Err OutOfFuel) as Hg.
  { unfold get. destruct (get__spec O (w (o_sid a)) (o_uid a) (map o_uid bs) (Some (o_active O)) None) as [(_ & ? & _)|(_ & f & m & -> & _)]; [done|].
    destruct (map o_uid bs) as [|? [|? ?]]; [done| |done]. by destruct (load_cuds_objects _ _). }
  destruct (get _ _ _ _ _ _) as [g|e]; [|simpl; congruence]. cbv zeta.
  destruct (forallb _ _); [|done]. by apply update_all_fuel.
Qed.

(** An object [n] that is going to be stored fits the target: its class accepts its
    attributes as they are ([copyable]), the target knows no other class of it if it has
    not got it, and for links of the target's version that the new version has not:
    along a non-active relationship (say, to a parent) it must be the object's only link
    along that relationship, and none may lead from the object to itself. *)
Definition fits_target (O : onto) (mk : cls -> list (attr * lit) -> res (list (attr * lit))) (S T : sess) (b n : uid) : Prop :=
  copyable mk (gr S) n /\ n <> 0 /\
  (n ∉ reg T -> forall c, (n, TType c) ∈ gr T -> (n, TType c) ∈ gr S) /\
  (forall r v, connected T n r v -> ~ connected S n r v -> active O r = false ->
     (forall y, connected T n r y -> y = v) /\
     (forall y, descendant O S b y -> connected S n r y -> active O (o_inv O r) = true)) /\
  (forall r, connected T n r n -> connected S n r n).
Lemma fits_target_fits O mk S T b n : fits_target O mk S T b n -> fits O mk S T b n.
Proof.
  intros (H1 & H2 & H3 & H4 & H5). constructor; try done. intros r v Ht Hs Hn. apply H4; [done|done|by apply not_act].
Qed.

(** The links that the target has after the objects below [b] have been stored. *)
Definition links_after (O : onto) (S T : sess) (b : uid) (x : uid) (r : rel) (y : uid) : Prop :=
  (descendant O S b x /\
     ((connected S x r y /\ (active O r = true \/ y ∈ reg T \/ descendant O S b y)) \/
      (connected T x r y /\ ~ connected S x r y /\ active O r = false /\ ~ (descendant O S b y /\ active O (o_inv O r) = true)))) \/
  (~ descendant O S b x /\
     ((connected T x r y /\ ~ (descendant O S b y /\ active O (o_inv O r) = true /\ ~ connected S y (o_inv O r) x)) \/
      (x ∈ reg T /\ descendant O S b y /\ connected S y (o_inv O r) x /\ active O (o_inv O r) = false))).

Section Store.
  Context (O : onto) (mk : cls -> list (attr * lit) -> res (list (attr * lit))) (w : world) (ks kt : sid) (a b : uid).
  Context (Hne : ks <> kt) (Hinv : involutive O) (Hrefl : forall r, o_sub O r r = true).
  Context (HS : tidy O (w ks)) (HT : tidy O (w kt)).
  Context (Ha : ~ descendant O (w ks) b a).
  Context (Hfits : forall n, descendant O (w ks) b n -> fits_target O mk (w ks) (w kt) b n).
  Local Notation desc := (descendant O (w ks) b).

  (** Classes and attributes after storing. *)
  Definition contents_after (w' : world) : Prop :=
    (forall u, u ∈ reg (w' kt) <-> u ∈ reg (w kt) \/ desc u) /\
    (forall x c, (x, TType c) ∈ gr (w' kt) <->
       (desc x /\ (x, TType c) ∈ gr (w ks)) \/
       (~ desc x /\ ((x, TType c) ∈ gr (w kt) \/ ((x, TType c) ∈ gr (w ks) /\ exists n r, desc n /\ connected (w ks) n r x)))) /\
    (forall x at_ l, (x, TAttr at_ l) ∈ gr (w' kt) <->
       (desc x /\ (x, TAttr at_ l) ∈ gr (w ks)) \/ (~ desc x /\ (x, TAttr at_ l) ∈ gr (w kt))).

  Lemma store_result :
    exists w', recursive_store O mk w (Obj kt a) (Obj ks b) (load1 w kt b) = (w', Ok (Some (Obj kt b))) /\
      contents_after w' /\ (forall x r y, connected (w' kt) x r y <-> links_after O (w ks) (w kt) b x r y) /\
      (forall u, desc u \/ ~ desc u) /\ tidy O (w' kt).
  Proof.
    destruct (recursive_store_spec O mk ks kt (w ks) (w kt) b Hne Hinv HS HT a Ha (fun n Hn => fits_target_fits _ _ _ _ _ _ (Hfits n Hn)) Hrefl w eq_refl eq_refl)
      as (w' & E & _ & Hr & Hdec & Hl & Hty & Hat).
    assert (load1 w kt b = if decide (b ∈ reg (w kt)) then Some (Obj kt b) else None) as -> by done.
    exists w'. split; [exact E|]. split; [done|].
    assert (forall x r y, connected (w' kt) x r y <-> links_after O (w ks) (w kt) b x r y) as Hl'.
    { intros x r y. unfold connected at 1. rewrite Hl. unfold stored_link, links_after, connected. by rewrite !not_act. }
    split; [done|]. split; [done|]. split; [|split].
    - intros x r y. unfold connected. rewrite !Hl. split.
      + by apply stored_link_sym.
      + intros H. apply (stored_link_sym O (w ks) (w kt) b Hinv HS HT) in H; [|done]. by rewrite Hinv in H.
    - intros x r y Hc. apply Hl in Hc. apply Hr. by eapply stored_link_reg.
    - intros x at_ l Hin. apply Hat in Hin as [[? _]|[_ ?]]; apply Hr; [by right|left]. destruct HT as (_ & _ & H'). by eapply H'.
  Qed.

  (** add() of an object of another session.  The target stays bidirectional, and its
      links are exactly: those of [links_after], and the added one with its inverse. *)
  Theorem C21_add_other_session r : a ∈ reg (w kt) -> ~ connected (w kt) a r b ->
    exists w', x_add O mk w (Obj kt a) r [Obj ks b] = (w', Ok [Obj kt b]) /\
      contents_after w' /\
      (forall x r' y, connected (w' kt) x r' y <->
         links_after O (w ks) (w kt) b x r' y \/ (x = a /\ r' = r /\ y = b) \/ (x = b /\ r' = o_inv O r /\ y = a)) /\
      tidy O (w' kt).
  Proof.
    intros Har Hnl. cbn [x_add o_sid o_uid].
    assert (linked (graph_of w (Obj kt a)) a r b = false) as -> by by apply linked_false.
    rewrite decide_False by (intros H; by apply Hne). 
    destruct store_result as (w1 & -> & (C1 & C2 & C3) & Hl & Hdec & (T1 & T2 & T3)). cbn [o_sid o_uid]. cbv zeta.
    eexists. split; [reflexivity|].
    match goal with |- contents_after ?x /\ _ => set (w2 := x) end.
    assert (forall t, t ∈ gr (w2 kt) <-> t ∈ gr (w1 kt) \/ t = (a, TLink r b) \/ t = (b, TLink (o_inv O r) a)) as Hg.
    { intros t. unfold w2. unfold set_graph at 1. cbn [o_sid]. rewrite upd_same. cbn [gr set_gr].
      rewrite set_neighbor_spec. unfold graph_of at 1. unfold set_graph at 1. cbn [o_sid]. rewrite upd_same. cbn [gr set_gr].
      rewrite set_neighbor_spec. setoid_rewrite elem_classes. unfold graph_of, set_graph. cbn [o_sid]. rewrite upd_same. cbn [gr set_gr].
      setoid_rewrite set_neighbor_spec. setoid_rewrite elem_classes. unfold graph_of. cbn [o_sid]. split.
      - intros [[?|[?|(c & Hc & ->)]]|[?|(c & [Hc|[Hc|(c' & Hc & Heq)]] & ->)]]; try tauto; try (by left); try done.
        injection Heq as -> ->. by left.
      - tauto. }
    assert (reg (w2 kt) = reg (w1 kt)) as Hrg.
    { unfold w2. unfold set_graph at 1. cbn [o_sid]. rewrite upd_same. cbn [reg set_gr]. unfold set_graph. cbn [o_sid]. by rewrite upd_same. }
    clearbody w2.
    assert (forall x r' y, connected (w2 kt) x r' y <->
         connected (w1 kt) x r' y \/ (x = a /\ r' = r /\ y = b) \/ (x = b /\ r' = o_inv O r /\ y = a)) as Hc.
    { intros x r' y. unfold connected. rewrite Hg. split; (intros [?|[H|H]]; [by left| |]).
      - right. left. by injection H as -> -> ->.
      - right. right. by injection H as -> -> ->.
      - right. left. by destruct H as (-> & -> & ->).
      - right. right. by destruct H as (-> & -> & ->). }
    split; [|split; [|split; [|split]]].
    - split; [|split].
      + intros u. by rewrite Hrg.
      + intros x c. rewrite Hg, <- C2. split; [intros [?|[?|?]]; done|by left].
      + intros x at_ l. rewrite Hg, <- C3. split; [intros [?|[?|?]]; done|by left].
    - intros x r' y. by rewrite Hc, Hl.
    - intros x r' y. rewrite !Hc, (T1 x r' y). split.
      + intros [?|[(-> & -> & ->)|(-> & -> & ->)]]; [by left|right; by right|]. right. left. rewrite Hinv. done.
      + intros [?|[(-> & H & ->)|(-> & H & ->)]]; [by left| |].
        * right. right. split; [done|]. split; [|done]. by rewrite <- H, Hinv.
        * right. left. split; [done|]. split; [|done]. rewrite <- (Hinv r'), H. apply Hinv.
    - intros x r' y H. rewrite Hrg. apply Hc in H as [H|[(-> & _)|(-> & _)]]; [by eapply T2| |]; apply C1; [by left|right; apply desc_self].
    - intros x at_ l H. rewrite Hrg. apply Hg in H as [H|[H|H]]; [by eapply T3|done|done].
  Qed.

  (** update() with another session's version of a contained object. *)
  Theorem C21_update_other_session r0 : connected (w kt) a r0 b -> active O r0 = true ->
    exists w', x_update O mk w (Obj kt a) [Obj ks b] = (w', Ok [Obj kt b]) /\
      contents_after w' /\
      (forall x r' y, connected (w' kt) x r' y <-> links_after O (w ks) (w kt) b x r' y) /\
      tidy O (w' kt).
  Proof.
    intros Hc Hact. unfold x_update. cbn [map o_sid o_uid].
    assert (b ∈ reg (w kt)) as Hb by by eapply tidy_target.
    assert (get O (w kt) a [b] (Some (o_active O)) None = Ok (One (Some b))) as ->.
    { unfold get.
      destruct (get__spec O (w kt) a [b] (Some (o_active O)) None) as [(_ & ? & _)|(_ & found & m & -> & _ & _ & Hpos & _)]; [done|].
      destruct (Hpos ltac:(done)) as [Hlen Hp]. destruct found as [|x [|y f]]; try done.
      destruct (Hp 0%nat b eq_refl) as [[[= ->] _]|[_ Hn]].
      - rewrite load_cuds_objects_id; [done|]. intros u Hu. by apply elem_of_list_singleton in Hu as [= ->].
      - destruct Hn. exists r0. split; [done|]. split; [by intros ? [= <-]|]. split; [intros _; left|done]. }
    cbn [forallb]. rewrite bool_decide_eq_true_2 by done. cbn [andb omap list_omap id map zip zip_with update_all o_sid].
    rewrite decide_False by done.
    destruct store_result as (w1 & E & C & Hl & Hdec & Ht).
    assert (load1 w kt b = Some (Obj kt b)) as Hld by (unfold load1; by rewrite decide_True). rewrite Hld in E.
    change (mret (Obj kt b)) with (Some (Obj kt b)) in *. 
    exists w1. split; [|done]. by rewrite E.
  Qed.
End Store.

(** Adding an object with everything below it new to the target: a copy, with the same
    classes, attributes and mutual links; the objects the target had keep their mutual
    links and their attributes; copies are linked with them as in the source. *)
Theorem C20_add_copies O mk w ks kt a b r :
  ks <> kt -> involutive O -> (forall r, o_sub O r r = true) -> tidy O (w ks) -> tidy O (w kt) ->
  a ∈ reg (w kt) ->
  (forall n, descendant O (w ks) b n -> n ∉ reg (w kt) /\ copyable mk (gr (w ks)) n /\ n <> 0 /\
     forall c, (n, TType c) ∈ gr (w kt) -> (n, TType c) ∈ gr (w ks)) ->
  exists w', x_add O mk w (Obj kt a) r [Obj ks b] = (w', Ok [Obj kt b]) /\
    (forall u, u ∈ reg (w' kt) <-> u ∈ reg (w kt) \/ descendant O (w ks) b u) /\
    (forall u, descendant O (w ks) b u ->
       (forall c, (u, TType c) ∈ gr (w' kt) <-> (u, TType c) ∈ gr (w ks)) /\
       (forall at_ l, (u, TAttr at_ l) ∈ gr (w' kt) <-> (u, TAttr at_ l) ∈ gr (w ks))) /\
    (forall u v r', descendant O (w ks) b u -> descendant O (w ks) b v ->
       (connected (w' kt) u r' v <-> connected (w ks) u r' v)) /\
    (forall u v r', u ∈ reg (w kt) -> v ∈ reg (w kt) -> (connected (w' kt) u r' v <-> connected (w kt) u r' v)) /\
    (forall u at_ l, u ∈ reg (w kt) -> ((u, TAttr at_ l) ∈ gr (w' kt) <-> (u, TAttr at_ l) ∈ gr (w kt))) /\
    (forall u v r', descendant O (w ks) b u -> v ∈ reg (w kt) ->
       (connected (w' kt) u r' v <-> connected (w ks) u r' v \/ (u = b /\ r' = o_inv O r /\ v = a))) /\
    tidy O (w' kt).
Proof.
  intros Hne Hinv Hrefl HS HT Har Hnew.
  assert (forall n r' v, descendant O (w ks) b n -> ~ connected (w kt) n r' v) as Hno.
  { intros n r' v Hd Hc. destruct HT as (_ & H & _). apply H in Hc. by apply (proj1 (Hnew n Hd)). }
  assert (forall n r' v, descendant O (w ks) b v -> ~ connected (w kt) n r' v) as Hno'.
  { intros n r' v Hd Hc. by apply (proj1 (Hnew v Hd)), (tidy_target O (w kt) n r' v). }
  assert (~ descendant O (w ks) b a) as Ha by (intros Hd; by apply (proj1 (Hnew a Hd))).
  destruct (C21_add_other_session O mk w ks kt a b Hne Hinv Hrefl HS HT Ha) with (r := r) as (w' & E & (C1 & C2 & C3) & Hl & Ht).
  { intros n Hn. destruct (Hnew n Hn) as (H1 & H2 & H3 & H4). split; [done|]. split; [done|]. split; [by intros _|]. split.
    - intros r' v Hc. by destruct (Hno n r' v Hn).
    - intros r' Hc. by destruct (Hno n r' n Hn). }
  { done. }
  { intros Hc. by apply (Hno' a r b (desc_self _ _ _)). }
  exists w'. split; [done|]. split; [done|].
  assert (forall u, u ∈ reg (w kt) -> ~ descendant O (w ks) b u) as Hold by (intros u Hu Hd; by apply (proj1 (Hnew u Hd))).
  split; [|split; [|split; [|split; [|split; [|done]]]]].
  - intros u Hu. split; [intros c; rewrite C2|intros at_ l; rewrite C3]; tauto.
  - intros u v r' Hu Hv. rewrite Hl. unfold links_after. pose proof (Hno u r' v Hu). split.
    + intros [?|[(-> & _)|(_ & _ & ->)]]; tauto.
    + intros Hc. left. left. split; [done|]. left. tauto.
  - intros u v r' Hu Hv. rewrite Hl. unfold links_after. pose proof (Hold u Hu). pose proof (Hold v Hv). split.
    + intros [?|[(_ & _ & ->)|(-> & _)]]; [tauto| |]; exfalso; [apply (Hold b Hv)|apply (Hold b Hu)]; apply desc_self.
    + tauto.
  - intros u at_ l Hu. rewrite C3. pose proof (Hold u Hu). tauto.
  - intros u v r' Hu Hv. rewrite Hl. unfold links_after. pose proof (Hno u r' v Hu). pose proof (Hold v Hv). split.
    + intros [?|[(-> & _)|?]]; tauto.
    + tauto.
Qed.

(** * A way to check the hypotheses on concrete sessions *)
Definition plain_mk (_ : cls) (kw : list (attr * lit)) : res (list (attr * lit)) := Ok kw.
Definition all_in (g : graph) (f : triple -> bool) : bool := forallb f (elements g).
Lemma all_in_true g f : all_in g f = true -> forall t, t ∈ g -> f t = true.
Proof. intros H t Ht. unfold all_in in H. rewrite forallb_forall in H. apply H. apply elem_of_list_In. by apply elem_of_elements. Qed.
Definition check (O : onto) (S T : sess) (b : uid) (D : list uid) : bool :=
  bool_decide (b ∈ D) &&
  all_in (gr S) (fun t => match t with (n, TLink r v) => negb (bool_decide (n ∈ D) && active O r) || bool_decide (v ∈ D) | _ => true end) &&
  forallb (fun n =>
    match classes (gr S) n with [_] => true | _ => false end &&
    all_in (gr S) (fun t => match t with (x, TAttr k l) => negb (bool_decide (x = n)) ||
      all_in (gr S) (fun t' => match t' with (x', TAttr k' l') => negb (bool_decide (x' = n) && bool_decide (k' = k)) || bool_decide (l' = l) | _ => true end) | _ => true end) &&
    bool_decide (n <> 0) &&
    (bool_decide (n ∈ reg T) || all_in (gr T) (fun t => match t with (x, TType c) => negb (bool_decide (x = n)) || bool_decide ((x, TType c) ∈ gr S) | _ => true end)) &&
    all_in (gr T) (fun t => match t with (x, TLink r v) =>
      (negb (bool_decide (x = n)) || linked (gr S) x r v || active O r ||
        (all_in (gr T) (fun t' => match t' with (x', TLink r' y) => negb (bool_decide (x' = n) && bool_decide (r' = r)) || bool_decide (y = v) | _ => true end) &&
         all_in (gr S) (fun t' => match t' with (x', TLink r' y) => negb (bool_decide (x' = n) && bool_decide (r' = r) && bool_decide (y ∈ D)) || active O (o_inv O r) | _ => true end))) &&
      (negb (bool_decide (x = n) && bool_decide (v = n)) || linked (gr S) x r v) | _ => true end)) D.

Ltac bools := repeat match goal with
  | H : (_ && _) = true |- _ => apply andb_true_iff in H as [? ?]
  | H : bool_decide _ = true |- _ => apply bool_decide_eq_true in H
  end.
Lemma check_fits O S T b D : check O S T b D = true ->
  (forall n, descendant O S b n -> n ∈ D) /\ (forall n, n ∈ D -> fits_target O plain_mk S T b n).
Proof.
  unfold check. intros H. apply andb_true_iff in H as [H Hf]. apply andb_true_iff in H as [Hb Hcl]. apply bool_decide_eq_true in Hb.
  assert (forall n, descendant O S b n -> n ∈ D) as HD.
  { intros n Hd. induction Hd as [|n r v Hd IH Hc Ha]; [done|]. pose proof (all_in_true _ _ Hcl _ Hc) as Hx. simpl in Hx.
    rewrite Ha, bool_decide_eq_true_2 in Hx by done. simpl in Hx. by bools. }
  split; [done|]. intros n Hn. rewrite forallb_forall in Hf. apply elem_of_list_In, Hf in Hn. clear Hf.
  apply andb_true_iff in Hn as [Hn H3]. apply andb_true_iff in Hn as [Hn H4]. apply andb_true_iff in Hn as [Hn H5]. apply andb_true_iff in Hn as [H7 H6].
  apply bool_decide_eq_true in H5.
  split; [|split; [done|split; [|split]]].
  - destruct (classes (gr S) n) as [|c [|]] eqn:Ec; try done. exists c. split; [|split].
    + intros c'. rewrite <- elem_classes, Ec. apply elem_of_list_singleton.
    + intros k l l' Hl Hl'. pose proof (all_in_true _ _ H6 _ Hl) as Hx. simpl in Hx. rewrite bool_decide_eq_true_2 in Hx by done. simpl in Hx.
      pose proof (all_in_true _ _ Hx _ Hl') as Hy. simpl in Hy. rewrite !bool_decide_eq_true_2 in Hy by done. simpl in Hy. by bools.
    + intros kw Hkw. exists kw. done.
  - intros Hr c Hc. rewrite bool_decide_eq_false_2 in H4 by done. simpl in H4. pose proof (all_in_true _ _ H4 _ Hc) as Hx. simpl in Hx.
    rewrite bool_decide_eq_true_2 in Hx by done. simpl in Hx. by bools.
  - intros r v Hc Hs Ha. pose proof (all_in_true _ _ H3 _ Hc) as Hx. simpl in Hx. apply andb_true_iff in Hx as [H8 _].
    rewrite (bool_decide_eq_true_2 (n = n)) in H8 by done. apply linked_false in Hs. rewrite Hs, Ha in H8. simpl in H8. apply andb_true_iff in H8 as [H8 H9]. split.
    + intros y Hy. pose proof (all_in_true _ _ H8 _ Hy) as Hx. simpl in Hx. rewrite !bool_decide_eq_true_2 in Hx by done. simpl in Hx. by bools.
    + intros y Hy Hcy. pose proof (all_in_true _ _ H9 _ Hcy) as Hx. simpl in Hx. rewrite !bool_decide_eq_true_2 in Hx; [done|by apply HD|done|done].
  - intros r Hc. pose proof (all_in_true _ _ H3 _ Hc) as Hx. simpl in Hx. apply andb_true_iff in Hx as [_ H8]. rewrite !(bool_decide_eq_true_2 (n = n)) in H8 by done. simpl in H8.
    by apply linked_true.
Qed.
Lemma reachable_tidy O s : involutive O -> (forall r, o_sub O r (o_relationship O) = true) -> reachable O s -> tidy O s.
Proof.
  intros Hi Ho Hr. destruct (reachable_inv O s Hi Ho Hr) as [H1 H2]. split; [done|]. split; intros; by eapply H2.
Qed.
Lemma exO_refl r : o_sub exO r r = true.
Proof. simpl. by rewrite bool_decide_eq_true_2. Qed.

(** * Examples.  Session 1 is the source, session 2 the target. *)
Definition two (S T : sess) : world := fun k => if decide (k = 1) then S else T.
Global Instance connected_dec s a r b : Decision (connected s a r b).
Proof. unfold connected. apply _. Defined.
Lemma run_tidy l : valid_run exO empty_sess l = true -> tidy exO (run exO l).
Proof. intros H. apply reachable_tidy; [apply exO_involutive|apply exO_covers|by apply run_reachable]. Qed.

(* source: 20 contains 21, which contains 20 again (a cycle) and is the peer of 30 *)
Definition exSrc : sess := run exO
  [Create 20 3 [(7, (5, 1))]; Create 21 4 []; Create 30 4 []; Create 31 4 []; Add 20 1 [21]; Add 21 1 [20]; Add 21 5 [30]; Add 31 1 [21]].
(* target: 10 and 30 *)
Definition exNew : sess := run exO [Create 10 3 []; Create 30 4 [(7, (9, 1))]; Add 10 1 [30]].
(* target with an old version of 20, contained in 10 and containing 22 *)
Definition exOld : sess := run exO [Create 10 3 []; Create 20 3 [(7, (8, 1))]; Create 22 4 []; Create 30 4 []; Add 10 1 [20]; Add 20 1 [22]; Add 10 1 [30]].
Lemma exSrc_tidy : tidy exO exSrc.
Proof. apply run_tidy. by vm_compute. Qed.
Lemma exNew_tidy : tidy exO exNew.
Proof. apply run_tidy. by vm_compute. Qed.
Lemma exOld_tidy : tidy exO exOld.
Proof. apply run_tidy. by vm_compute. Qed.

Lemma exNew_fits : check exO exSrc exNew 20 [20; 21] = true.
Proof. by vm_compute. Qed.
Lemma exOld_fits : check exO exSrc exOld 20 [20; 21] = true.
Proof. by vm_compute. Qed.
Lemma in2 (n x y : N) : n ∈ [x; y] -> n = x \/ n = y.
Proof. intros H. apply elem_of_cons in H as [->|H]; [by left|]. apply elem_of_list_singleton in H. by right. Qed.

(** the hypotheses of C20_add_copies hold, and the copy is what one expects *)
Example C20_example :
  (forall n, descendant exO exSrc 20 n -> n ∉ reg exNew /\ copyable plain_mk (gr exSrc) n /\ n <> 0 /\
     forall c, (n, TType c) ∈ gr exNew -> (n, TType c) ∈ gr exSrc) /\
  10 ∈ reg exNew /\ descendant exO exSrc 20 21 /\
  let '(w', r) := x_add exO plain_mk (two exSrc exNew) (Obj 2 10) 1 [Obj 1 20] in
  match r with Ok l => bool_decide (l = [Obj 2 20]) | Err _ => false end && bool_decide (reg (w' 2) = {[10; 30; 20; 21]}) && bool_decide (gr (w' 2) = {[
    (10, TType 3); (20, TType 3); (21, TType 4); (30, TType 4); (31, TType 4);   (* 31: only the type is left *)
    (20, TAttr 7 (5, 1)); (30, TAttr 7 (9, 1));
    (10, TLink 1 30); (30, TLink 2 10); (10, TLink 1 20); (20, TLink 2 10);
    (20, TLink 1 21); (21, TLink 2 20); (21, TLink 1 20); (20, TLink 2 21); (21, TLink 5 30); (30, TLink 5 21) ]}) = true.
Proof.
  destruct (check_fits _ _ _ _ _ exNew_fits) as [HD HF]. split; [|split; [|split]].
  - intros n Hn. pose proof (HD n Hn) as Hin. destruct (HF n Hin) as (H1 & H2 & H3 & _).
    assert (n ∉ reg exNew) as Hr.
    { apply in2 in Hin as [->| ->]; (refine (proj1 (bool_decide_eq_true _) _); by vm_compute). }
    split; [done|]. split; [done|]. split; [done|]. by apply H3.
  - refine (proj1 (bool_decide_eq_true _) _). by vm_compute.
  - apply (desc_child _ _ _ 20 1); [apply desc_self| |by vm_compute]. refine (proj1 (bool_decide_eq_true _) _). by vm_compute.
  - by vm_compute.
Qed.

(** the hypotheses of C21_update_other_session hold: 20 loses 22, gets 21, keeps its parent *)
Example C21_example :
  (forall n, descendant exO exSrc 20 n -> fits_target exO plain_mk exSrc exOld 20 n) /\ ~ descendant exO exSrc 20 10 /\
  connected exOld 10 1 20 /\ active exO 1 = true /\
  let '(w', r) := x_update exO plain_mk (two exSrc exOld) (Obj 2 10) [Obj 1 20] in
  match r with Ok l => bool_decide (l = [Obj 2 20]) | Err _ => false end && bool_decide (reg (w' 2) = {[10; 22; 30; 20; 21]}) && bool_decide (gr (w' 2) = {[
    (10, TType 3); (20, TType 3); (21, TType 4); (22, TType 4); (30, TType 4); (31, TType 4); (20, TAttr 7 (5, 1));
    (10, TLink 1 30); (30, TLink 2 10); (10, TLink 1 20); (20, TLink 2 10);
    (20, TLink 1 21); (21, TLink 2 20); (21, TLink 1 20); (20, TLink 2 21); (21, TLink 5 30); (30, TLink 5 21) ]}) = true.
Proof.
  destruct (check_fits _ _ _ _ _ exOld_fits) as [HD HF]. split; [|split; [|split; [|split]]].
  - intros n Hn. by apply HF, HD.
  - intros Hd. apply HD, in2 in Hd. clear -Hd. destruct Hd; discriminate.
  - refine (proj1 (bool_decide_eq_true _) _). by vm_compute.
  - by vm_compute.
  - by vm_compute.
Qed.

(** * What update() refuses *)

(** update() with an object that is not contained, or with an object of the same
    session, raises ValueError and changes nothing. *)
Lemma update_olds O mk w a bs : bs <> [] -> (forall x r y, connected (w (o_sid a)) x r y -> y ∈ reg (w (o_sid a))) ->
  exists found, length found = length bs /\
    (forall i b, bs !! i = Some b ->
       found !! i = Some (Some (o_uid b)) /\ (exists r, connected (w (o_sid a)) (o_uid a) r (o_uid b) /\ active O r = true) \/
       found !! i = Some None /\ forall r, connected (w (o_sid a)) (o_uid a) r (o_uid b) -> active O r = false) /\
    x_update O mk w a bs =
      if forallb (fun x => bool_decide (x <> None)) found
      then update_all O mk w a (zip bs (map (Obj (o_sid a)) (omap id found)))
      else (w, Err ValueError).
Proof.
  intros Hne Hreg. unfold x_update, get.
  destruct (get__spec O (w (o_sid a)) (o_uid a) (map o_uid bs) (Some (o_active O)) None)
    as [(_ & ? & _)|(_ & found & m & -> & _ & _ & Hpos & _)]; [done|].
  destruct (Hpos ltac:(by destruct bs)) as [Hlen Hp]. clear Hpos. rewrite map_length in Hlen.
  assert (Hf : forall i b, bs !! i = Some b ->
       found !! i = Some (Some (o_uid b)) /\ (exists r, connected (w (o_sid a)) (o_uid a) r (o_uid b) /\ active O r = true) \/
       found !! i = Some None /\ forall r, connected (w (o_sid a)) (o_uid a) r (o_uid b) -> active O r = false).
  { intros i b Hb. assert (map o_uid bs !! i = Some (o_uid b)) as Hm by (change (map o_uid bs) with (o_uid <$> bs); by rewrite list_lookup_fmap, Hb).
    destruct (Hp _ _ Hm) as [[H1 (r & H2 & H3 & _)]|[H1 H2]].
    - left. split; [done|]. exists r. split; [done|]. by apply H3.
    - right. split; [done|]. intros r Hr. apply not_true_is_false. intros Hact. apply H2. exists r.
      split; [done|]. split; [by intros ? [= <-]|]. split; [|done]. intros _. by eapply elem_of_list_lookup_2. }
  assert (load_cuds_objects (w (o_sid a)) found = found) as Hload.
  { apply load_cuds_objects_id. intros u Hu. apply elem_of_list_lookup in Hu as (i & Hi).
    assert (is_Some (bs !! i)) as [b Hb] by (apply lookup_lt_is_Some; rewrite <-Hlen; by eapply lookup_lt_Some).
    destruct (Hf _ _ Hb) as [[H1 (r & H2 & _)]|[H1 _]]; [|congruence]. rewrite Hi in H1. injection H1 as ->. by eapply Hreg. }
  exists found. split; [done|]. split; [done|]. rewrite Hload.
  destruct bs as [|b1 [|b2 bs]]; [done| |done]. cbn [map]. destruct found as [|x [|y found]]; done.
Qed.

Theorem C21_update_not_contained O mk w a bs b :
  (forall x r y, connected (w (o_sid a)) x r y -> y ∈ reg (w (o_sid a))) -> b ∈ bs ->
  (forall r, connected (w (o_sid a)) (o_uid a) r (o_uid b) -> active O r = false) ->
  x_update O mk w a bs = (w, Err ValueError).
Proof.
  intros Hreg Hb Hno. destruct (update_olds O mk w a bs) as (found & Hlen & Hf & ->); [by destruct bs; [apply elem_of_nil in Hb|]|done|].
  apply elem_of_list_lookup in Hb as (i & Hi).
  destruct (forallb _ found) eqn:E; [|done]. exfalso. rewrite forallb_forall in E.
  destruct (Hf _ _ Hi) as [[H1 (r & H2 & H3)]|[H1 _]]; [rewrite Hno in H3; done|].
  apply elem_of_list_lookup_2, elem_of_list_In, E in H1. done.
Qed.

Theorem C21_update_same_session O mk w a b bs :
  (forall x r y, connected (w (o_sid a)) x r y -> y ∈ reg (w (o_sid a))) -> o_sid b = o_sid a ->
  x_update O mk w a (b :: bs) = (w, Err ValueError).
Proof.
  intros Hreg Hs. destruct (update_olds O mk w a (b :: bs)) as (found & Hlen & Hf & ->); [done|done|].
  destruct found as [|x found]; [done|]. cbn [forallb].
  destruct (Hf 0%nat b eq_refl) as [[[= ->] _]|[[= ->] _]]; [|done].
  destruct (_ && _); [|done]. cbn [omap list_omap id map zip zip_with update_all]. by rewrite decide_True.
Qed.

Lemma t_in (t : triple) (g : graph) : bool_decide (t ∈ g) = true -> t ∈ g.
Proof. apply bool_decide_eq_true. Qed.
(** The hypotheses are met: 21 is not contained in 10, 20 is. *)
Example C21_refused_example :
  (forall x r y, connected (two exSrc exOld 2) x r y -> y ∈ reg (two exSrc exOld 2)) /\
  (forall r, connected (two exSrc exOld 2) 10 r 21 -> active exO r = false) /\ connected (two exSrc exOld 2) 10 1 20.
Proof.
  assert (forall x r y, connected exOld x r y -> y ∈ reg exOld) as HT.
  { destruct exOld_tidy as (T1 & T2 & _). intros x r y H. exact (T2 _ _ _ (proj1 (T1 x r y) H)). }
  split; [|split].
  - change (two exSrc exOld 2) with exOld. exact HT.
  - change (two exSrc exOld 2) with exOld. intros r H. exfalso. apply HT in H. revert H.
    intros H. apply elem_of_elements, elem_of_list_In in H.
    assert (existsb (N.eqb 21) (elements (reg exOld)) = false) as HE by (vm_compute; reflexivity).
    assert (existsb (N.eqb 21) (elements (reg exOld)) = true) by (apply existsb_exists; exists 21%N; split; [exact H|reflexivity]).
    rewrite HE in *. discriminate.
  - change (two exSrc exOld 2) with exOld. apply t_in. vm_compute. reflexivity.
Qed.

(** * Where the claims fail *)
Lemma t_out (t : triple) (g : graph) : bool_decide (t ∈ g) = false -> t ∉ g.
Proof. apply bool_decide_eq_false. Qed.
Lemma u_in (u : uid) (g : gset uid) : bool_decide (u ∈ g) = true -> u ∈ g.
Proof. apply bool_decide_eq_true. Qed.
Lemma u_out (u : uid) (g : gset uid) : bool_decide (u ∈ g) = false -> u ∉ g.
Proof. apply bool_decide_eq_false. Qed.
Ltac by_mem := lazymatch goal with
  | |- _ ∉ gr _ => apply t_out | |- _ ∈ gr _ => apply t_in | |- _ ∉ reg _ => apply u_out | |- _ ∈ reg _ => apply u_in
  | |- connected _ _ _ _ => apply t_in
  end; vm_compute; reflexivity.

(* a session that is bidirectional on the links it has, as a boolean *)
Definition bidir_b (O : onto) (s : sess) : bool :=
  all_in (gr s) (fun t => match t with (x, TLink r y) => linked (gr s) y (o_inv O r) x | _ => true end).
Lemma bidir_b_false O s : bidir_b O s = false -> ~ bidirectional O s.
Proof.
  intros Hf Hb. assert (bidir_b O s = true); [|congruence]. unfold bidir_b, all_in. apply forallb_forall. intros [x [r y|c|k l]] Hin; [|done|done].
  apply elem_of_list_In, elem_of_elements in Hin. apply linked_true. exact (proj1 (Hb x r y) Hin).
Qed.

(** C21 without the proviso: an object with two parents, neither of which is in the new
    version: the link back is restored to the first parent only. *)
Definition twoParents : sess := run exO [Create 10 3 []; Create 11 3 []; Create 20 3 []; Add 10 1 [20]; Add 11 1 [20]].
Definition loneSrc : sess := run exO [Create 20 3 []].
Theorem C21_two_parents_refuted :
  exists w, tidy exO (w 1) /\ tidy exO (w 2) /\ connected (w 2) 10 1 20 /\
    exists w', x_update exO plain_mk w (Obj 2 10) [Obj 1 20] = (w', Ok [Obj 2 20]) /\ ~ bidirectional exO (w' 2).
Proof.
  exists (two loneSrc twoParents). split; [apply run_tidy; by vm_compute|]. split; [apply run_tidy; by vm_compute|].
  split; [by_mem|].
  exists (fst (x_update exO plain_mk (two loneSrc twoParents) (Obj 2 10) [Obj 1 20])). split.
  - assert (snd (x_update exO plain_mk (two loneSrc twoParents) (Obj 2 10) [Obj 1 20]) = Ok [Obj 2 20]) as E.
    { vm_compute. reflexivity. }
    rewrite <- E. apply surjective_pairing.
  - apply bidir_b_false. by vm_compute.
Qed.

(** C20 if the added object contains the object it is added to: that link gets no inverse. *)
Definition selfSrc : sess := run exO [Create 10 3 []; Create 20 3 []; Add 20 1 [10]].
Definition selfTgt : sess := run exO [Create 10 3 []].
Theorem C20_contains_self_refuted :
  exists w, tidy exO (w 1) /\ tidy exO (w 2) /\ 20 ∉ reg (w 2) /\
    exists w', x_add exO plain_mk w (Obj 2 10) 5 [Obj 1 20] = (w', Ok [Obj 2 20]) /\ ~ bidirectional exO (w' 2).
Proof.
  exists (two selfSrc selfTgt). split; [apply run_tidy; by vm_compute|]. split; [apply run_tidy; by vm_compute|].
  split; [by_mem|].
  exists (fst (x_add exO plain_mk (two selfSrc selfTgt) (Obj 2 10) 5 [Obj 1 20])). split.
  - assert (snd (x_add exO plain_mk (two selfSrc selfTgt) (Obj 2 10) 5 [Obj 1 20]) = Ok [Obj 2 20]) as E.
    { vm_compute. reflexivity. }
    rewrite <- E. apply surjective_pairing.
  - apply bidir_b_false. by vm_compute.
Qed.

(** An object that is not copied but has a link from a copied one gets the source's
    classes besides its own. *)
Definition mergeSrc : sess := run exO [Create 20 3 []; Create 30 9 []; Add 20 5 [30]].
Definition mergeTgt : sess := run exO [Create 10 3 []; Create 30 4 []].
Theorem C20_classes_merged_refuted :
  exists w, tidy exO (w 1) /\ tidy exO (w 2) /\ ~ descendant exO (w 1) 20 30 /\ (30, TType 9) ∉ gr (w 2) /\
    exists w', x_add exO plain_mk w (Obj 2 10) 1 [Obj 1 20] = (w', Ok [Obj 2 20]) /\ (30, TType 9) ∈ gr (w' 2) /\ (30, TType 4) ∈ gr (w' 2).
Proof.
  exists (two mergeSrc mergeTgt). split; [apply run_tidy; by vm_compute|]. split; [apply run_tidy; by vm_compute|].
  split.
  { intros Hd. assert (check exO mergeSrc mergeTgt 20 [20; 20] = true) as Hc by by vm_compute.
    apply (proj1 (check_fits _ _ _ _ _ Hc)) in Hd. apply in2 in Hd. clear -Hd. destruct Hd; discriminate. }
  split; [by_mem|].
  exists (fst (x_add exO plain_mk (two mergeSrc mergeTgt) (Obj 2 10) 1 [Obj 1 20])). split; [|split].
  - assert (snd (x_add exO plain_mk (two mergeSrc mergeTgt) (Obj 2 10) 1 [Obj 1 20]) = Ok [Obj 2 20]) as E.
    { vm_compute. reflexivity. }
    rewrite <- E. apply surjective_pairing.
  - by_mem.
  - by_mem.
Qed.

(** A class that does not accept the attributes makes add() raise half-way: objects
    copied before stay in the target. *)
Definition strict_mk (c : cls) (kw : list (attr * lit)) : res (list (attr * lit)) := if decide (c = 4) then Err TypeError else Ok kw.
Theorem C20_not_atomic_refuted :
  exists w, tidy exO (w 1) /\ tidy exO (w 2) /\
    snd (x_add exO strict_mk w (Obj 2 10) 1 [Obj 1 20]) = Err TypeError /\ 20 ∉ reg (w 2) /\
    20 ∈ reg (fst (x_add exO strict_mk w (Obj 2 10) 1 [Obj 1 20]) 2).
Proof.
  exists (two exSrc exNew). split; [apply exSrc_tidy|]. split; [apply exNew_tidy|].
  split; [vm_compute; reflexivity|split]; by_mem.
Qed.

Print Assumptions C19_add_frame.
Print Assumptions C19_update_frame.
Print Assumptions C20_add_terminates.
Print Assumptions C20_update_terminates.
Print Assumptions C20_add_copies.
Print Assumptions C20_example.
Print Assumptions C20_contains_self_refuted.
Print Assumptions C20_classes_merged_refuted.
Print Assumptions C20_not_atomic_refuted.
Print Assumptions C21_add_other_session.
Print Assumptions C21_update_other_session.
Print Assumptions C21_update_not_contained.
Print Assumptions C21_update_same_session.
Print Assumptions C21_refused_example.
Print Assumptions C21_example.
Print Assumptions C21_two_parents_refuted.
