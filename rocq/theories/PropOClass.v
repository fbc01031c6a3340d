(** C48: attributes of classes and arguments of constructors; C49: datatypes. *)
From stdpp Require Import base list gmap countable.
From Verif Require Import Prelude Onto PropOnto OClass.
Local Open Scope N_scope.

(** ** Specification *)

(** rdflib may enumerate the matching triples in any order. *)
Definition enum_ok (g : ograph) (enum : pattern -> list otriple) : Prop :=
  forall p t, t ∈ enum p <-> t ∈ g /\ pat_match p t = true.

Definition is_attr (g : ograph) (a : term) : Prop :=
  (a, p_type, owl_DatatypeProperty) ∈ g /\ exists n, a = IRI n.

(** Class c itself has attribute a: by a restriction (as the YAML parser writes it)
    or because it is the attribute's domain. *)
Definition restricts (g : ograph) (c a : term) : Prop :=
  is_attr g a /\ exists r, (c, p_subClassOf, r) ∈ g /\ (r, p_type, owl_Restriction) ∈ g /\ (r, p_onProperty, a) ∈ g.
Definition in_domain (g : ograph) (c a : term) : Prop :=
  is_attr g a /\ a <> owl_topDataProperty /\ a <> owl_bottomDataProperty /\ (a, p_domain, c) ∈ g.
Definition declares (g : ograph) (c a : term) : Prop := restricts g c a \/ in_domain g c a.
Definition has_default (g : ograph) (c a v : term) : Prop :=
  exists b, (c, p_default, b) ∈ g /\ (b, p_default_attribute, a) ∈ g /\ (b, p_default_value, v) ∈ g.

Record wf_onto (g : ograph) : Prop := {
  wf_on : forall c r, (c, p_subClassOf, r) ∈ g -> (r, p_type, owl_Restriction) ∈ g ->
            exists a, forall a', (r, p_onProperty, a') ∈ g <-> a' = a;
  wf_subj : forall n p o, (LIT n, p, o) ∉ g;
  wf_default : forall c b, (c, p_default, b) ∈ g ->
            exists v, forall v', (b, p_default_value, v') ∈ g <-> v' = v }.

(** ** Dictionaries *)
Section Dict.
  Context {A : Type}.
  Implicit Types d : list (term * A).
  Lemma dget_dset d k v k' : dget (dset d k v) k' = if decide (k = k') then Some v else dget d k'.
  Proof.
    induction d as [|[k0 v0] d IH]; simpl.
    - by repeat case_decide.
    - destruct (decide (k0 = k)) as [->|Hne]; simpl.
      + by repeat case_decide.
      + rewrite IH. repeat case_decide; congruence.
  Qed.
  Lemma dget_keys d k : is_Some (dget d k) <-> k ∈ d.*1.
  Proof.
    induction d as [|[k0 v0] d IH]; simpl.
    - split; [by intros []|intros H; by apply elem_of_nil in H].
    - rewrite elem_of_cons. case_decide as Hd; [subst; split; [by left|eauto]|]. rewrite IH. naive_solver.
  Qed.
  Lemma dset_keys d k v k' : k' ∈ (dset d k v).*1 <-> k' = k \/ k' ∈ d.*1.
  Proof. rewrite <- !dget_keys, dget_dset. case_decide; naive_solver. Qed.
  Lemma dset_nodup d k v : NoDup d.*1 -> NoDup (dset d k v).*1.
  Proof.
    induction d as [|[k0 v0] d IH]; simpl; intros Hn.
    - apply NoDup_singleton.
    - apply stdpp.list.NoDup_cons in Hn as [H1 H2]. case_decide as Hd; simpl; apply stdpp.list.NoDup_cons.
      + done.
      + split; [|by apply IH]. rewrite dset_keys. intros [->|?]; done.
  Qed.
  Lemma dget_in d k v : NoDup d.*1 -> (k, v) ∈ d <-> dget d k = Some v.
  Proof.
    induction d as [|[k0 v0] d IH]; simpl; intros Hn.
    - split; [intros H; by apply elem_of_nil in H|done].
    - apply stdpp.list.NoDup_cons in Hn as [H1 H2]. rewrite elem_of_cons. case_decide as Hd.
      + subst. split.
        * intros [[= ->]|H]; [done|]. destruct H1. apply elem_of_list_fmap. by exists (k, v).
        * intros [= ->]. by left.
      + rewrite <- IH by done. split; [|by right]. intros [[= -> ->]|?]; done.
  Qed.
End Dict.

(** ** Own attributes *)
Section Own.
  Context (g : ograph) (enum : pattern -> list otriple) (truthy : term -> bool).
  Context (He : enum_ok g enum) (Hwf : wf_onto g).

  Lemma elem_enum p t : t ∈ enum p <-> t ∈ g /\ pat_match p t = true.
  Proof. apply He. Qed.
  Lemma enum_subj s p o : (s, p, o) ∈ g <-> (s, p, o) ∈ enum (Some s, p, None).
  Proof.
    rewrite elem_enum. simpl. rewrite !bool_decide_eq_true_2 by done. tauto.
  Qed.
  Lemma enum_subj_inv s p t : t ∈ enum (Some s, p, None) -> t ∈ g /\ fst t = (s, p).
  Proof.
    destruct t as [[s' p'] o]. rewrite elem_enum. simpl. rewrite !andb_true_iff, !bool_decide_eq_true. naive_solver.
  Qed.
  Lemma enum_obj_inv p o t : t ∈ enum (None, p, Some o) <-> t ∈ g /\ exists s, t = (s, p, o).
  Proof.
    destruct t as [[s' p'] o']. rewrite elem_enum. simpl. rewrite !andb_true_iff, !bool_decide_eq_true. naive_solver.
  Qed.

  Lemma gvalue_some s p o : gvalue enum s p = Some o -> (s, p, o) ∈ g.
  Proof.
    unfold gvalue. destruct (enum (Some s, p, None)) as [|[[s' p'] o'] l] eqn:E; [done|]. intros [= ->].
    destruct (enum_subj_inv s p (s', p', o)) as [H1 H2]; [rewrite E; left|]. by injection H2 as -> ->.
  Qed.
  Lemma gvalue_none s p o : gvalue enum s p = None -> (s, p, o) ∉ g.
  Proof.
    unfold gvalue. destruct (enum (Some s, p, None)) as [|[[s' p'] o'] l] eqn:E; [|done]. intros _ H.
    apply enum_subj in H. rewrite E in H. by apply elem_of_nil in H.
  Qed.

  Lemma find_default_spec a c ts :
    (forall t, t ∈ ts -> t ∈ g /\ fst t = (c, p_default)) ->
    (forall v, find_default g enum a ts = Some v -> has_default g c a v) /\
    (find_default g enum a ts = None -> forall t, t ∈ ts -> (snd t, p_default_attribute, a) ∉ g).
  Proof.
    induction ts as [|[[s p] b] ts IH]; simpl; intros H.
    { split; [done|]. intros _ t Ht. by apply elem_of_nil in Ht. }
    destruct (H (s, p, b)) as [H1 H2]; [left|]. injection H2 as -> ->.
    case_decide as Hd.
    - split.
      + intros v Hv. exists b. split; [done|]. split; [done|]. by apply gvalue_some.
      + intros Hn. destruct (wf_default _ Hwf _ _ H1) as [v Hv].
        exfalso. eapply gvalue_none; [exact Hn|]. by apply Hv.
    - destruct IH as [I1 I2]. { intros t Ht. apply H. by right. }
      split; [exact I1|]. intros Hn t Ht. apply elem_of_cons in Ht as [->|Ht]; [done|]. by apply I2.
  Qed.
  Lemma get_default_some c a v : get_default g enum a c = Some v -> has_default g c a v.
  Proof. apply find_default_spec. intros t Ht. by apply enum_subj_inv. Qed.
  Lemma get_default_none c a : get_default g enum a c = None <-> forall v, ~ has_default g c a v.
  Proof.
    split.
    - intros Hn v (b & H1 & H2 & H3). apply (find_default_spec a c) with (t := (c, p_default, b)) in Hn; [done| |by apply enum_subj].
      intros t Ht. by apply enum_subj_inv.
    - intros H. destruct (get_default g enum a c) eqn:E; [|done]. by apply get_default_some, H in E.
  Qed.

  Definition dom_ok (a : term) : Prop :=
    is_attr g a /\ a <> owl_topDataProperty /\ a <> owl_bottomDataProperty.
  Lemma case1_fold c ts : forall d,
    NoDup d.*1 -> (forall t, t ∈ ts -> t ∈ g) ->
    exists d', foldl (case1_step g enum c) (Ok d) ts = Ok d' /\ NoDup d'.*1 /\
      forall a, (dom_ok a -> a ∈ ts.*1.*1 -> dget d' a = Some (Info (get_default g enum a c) false None)) /\
                (~ (dom_ok a /\ a ∈ ts.*1.*1) -> dget d' a = dget d a).
  Proof.
    induction ts as [|t ts IH]; intros d Hnd Hts.
    { exists d. split; [done|]. split; [done|]. intros a. split; [|done]. intros _ H. by apply elem_of_nil in H. }
    cbn [foldl]. destruct t as [[a0 p0] o0]. unfold case1_step at 2. simpl fst.
    assert ((a0, p0, o0) ∈ g) as Hin by (apply Hts; left).
    assert (forall t, t ∈ ts -> t ∈ g) as Hts' by (intros t Ht; apply Hts; by right).
    assert (negb (isDP g a0) || is_bnode a0 || bool_decide (a0 = owl_topDataProperty \/ a0 = owl_bottomDataProperty) = false <-> dom_ok a0) as Hb.
    { unfold dom_ok, is_attr, isDP. rewrite !orb_false_iff, negb_false_iff, bool_decide_eq_true, bool_decide_eq_false.
      destruct a0 as [n|n|n]; simpl; [| |by apply (wf_subj _ Hwf) in Hin].
      - naive_solver.
      - split; [by intros [[_ ?] _]|]. by intros [[_ [? ?]] _]. }
    destruct (negb (isDP g a0) || is_bnode a0 || bool_decide _) eqn:E.
    - destruct (IH d Hnd Hts') as (d' & H1 & H2 & H3). exists d'. split; [done|]. split; [done|].
      intros a. destruct (H3 a) as [H4 H5]. split.
      + intros Ha Hi. simpl in Hi. apply elem_of_cons in Hi as [->|Hi]; [by apply Hb in Ha|auto].
      + intros Hn. apply H5. intros [Ha Hi]. apply Hn. split; [done|]. simpl. by right.
    - destruct Hb as [Hb _]. specialize (Hb eq_refl). pose proof Hb as [[_ [n ->]] _].
      destruct (IH (dset d (IRI n) (Info (get_default g enum (IRI n) c) false None))) as (d' & H1 & H2 & H3).
      { by apply dset_nodup. } { done. }
      exists d'. split; [done|]. split; [done|]. intros a. destruct (H3 a) as [H4 H5]. split.
      + intros Ha Hi. destruct (decide (a ∈ ts.*1.*1)) as [Hi'|Hi']; [by apply H4|].
        rewrite H5 by tauto. simpl in Hi. apply elem_of_cons in Hi as [->|Hi]; [|done].
        by rewrite dget_dset, decide_True.
      + intros Hn. rewrite H5. 2: { intros [Ha Hi]. apply Hn. split; [done|]. simpl. by right. }
        rewrite dget_dset, decide_False; [done|]. intros <-. apply Hn. split; [done|]. simpl. left.
  Qed.

  Definition restr_of (o a : term) : Prop :=
    (o, p_type, owl_Restriction) ∈ g /\ (o, p_onProperty, a) ∈ g /\ is_attr g a.
  Lemma case2_fold c ts : forall d,
    NoDup d.*1 -> (forall t, t ∈ ts -> t ∈ g /\ fst t = (c, p_subClassOf)) ->
    exists d', foldl (case2_step g enum truthy c) (Ok d) ts = Ok d' /\ NoDup d'.*1 /\
      forall a, ((exists t, t ∈ ts /\ restr_of (snd t) a) ->
                   exists t, t ∈ ts /\ restr_of (snd t) a /\
                     dget d' a = Some (Info (get_default g enum a c) (bool_decide (get_default g enum a c = None))
                                        (fst (restriction_datatype enum truthy (snd t))))) /\
                (~ (exists t, t ∈ ts /\ restr_of (snd t) a) -> dget d' a = dget d a).
  Proof.
    induction ts as [|t ts IH]; intros d Hnd Hts.
    { exists d. split; [done|]. split; [done|]. intros a. split; [|done]. intros (t & H & _). by apply elem_of_nil in H. }
    cbn [foldl]. destruct (Hts t) as [Hin Hf]; [left|]. destruct t as [[c0 p0] o]. injection Hf as -> ->.
    assert (forall t, t ∈ ts -> t ∈ g /\ fst t = (c, p_subClassOf)) as Hts' by (intros t Ht; apply Hts; by right).
    unfold case2_step at 2. cbn [snd].
    assert (forall d0, (forall a, ~ restr_of o a) -> NoDup d0.*1 ->
      exists d', foldl (case2_step g enum truthy c) (Ok d0) ts = Ok d' /\ NoDup d'.*1 /\
      forall a, ((exists t, t ∈ (c, p_subClassOf, o) :: ts /\ restr_of (snd t) a) ->
                   exists t, t ∈ (c, p_subClassOf, o) :: ts /\ restr_of (snd t) a /\
                     dget d' a = Some (Info (get_default g enum a c) (bool_decide (get_default g enum a c = None))
                                        (fst (restriction_datatype enum truthy (snd t))))) /\
                (~ (exists t, t ∈ (c, p_subClassOf, o) :: ts /\ restr_of (snd t) a) -> dget d' a = dget d0 a)) as Hskip.
    { intros d0 Hno Hnd0. destruct (IH d0 Hnd0 Hts') as (d' & H1 & H2 & H3). exists d'. split; [done|]. split; [done|].
      intros a. destruct (H3 a) as [H4 H5]. split.
      - intros (t & Ht & Hr). apply elem_of_cons in Ht as [->|Ht]; [by apply Hno in Hr|].
        destruct H4 as (t' & X1 & X2 & X3); [by exists t|]. exists t'. split; [by right|]. done.
      - intros Hn. apply H5. intros (t & Ht & Hr). apply Hn. exists t. split; [by right|done]. }
    destruct (bool_decide ((o, p_type, owl_Restriction) ∈ g)) eqn:E1; cbn [negb].
    2: { apply bool_decide_eq_false in E1. apply Hskip; [|done]. by intros a [? _]. }
    apply bool_decide_eq_true in E1.
    destruct (wf_on _ Hwf _ _ Hin E1) as [a0 Ha0].
    destruct (gvalue enum o p_onProperty) as [a|] eqn:E2.
    2: { exfalso. eapply gvalue_none; [exact E2|]. by apply Ha0. }
    apply gvalue_some, Ha0 in E2 as ->.
    assert (forall a, restr_of o a -> a = a0) as Hu. { intros a (_ & H & _). by apply Ha0. }
    destruct (negb (isDP g a0) || is_bnode a0) eqn:E3.
    { apply Hskip; [|done]. intros a Hr. pose proof (Hu a Hr) as ->. destruct Hr as (_ & _ & Hd & [n ->]).
      unfold isDP in E3. rewrite bool_decide_eq_true_2 in E3 by done. done. }
    apply orb_false_iff in E3 as [E3 E4]. apply negb_false_iff in E3. unfold isDP in E3. apply bool_decide_eq_true in E3.
    destruct a0 as [n|n|n]; [|done|by apply (wf_subj _ Hwf) in E3].
    assert (restr_of o (IRI n)) as Hr. { split; [done|]. split; [by apply Ha0|]. split; [done|]. by exists n. }
    destruct (restriction_datatype enum truthy o) as [dt obl] eqn:E5.
    assert (obl = true) as -> by (unfold restriction_datatype in E5; by injection E5 as _ <-).
    set (i := Info (get_default g enum (IRI n) c) (bool_decide (get_default g enum (IRI n) c = None)) dt).
    assert (Info (get_default g enum (IRI n) c) (bool_decide (get_default g enum (IRI n) c = None) && true) dt = i) as ->.
    { unfold i. by rewrite andb_true_r. }
    destruct (IH (dset d (IRI n) i)) as (d' & H1 & H2 & H3). { by apply dset_nodup. } { done. }
    exists d'. split; [done|]. split; [done|]. intros a. destruct (H3 a) as [H4 H5]. split.
    - intros Hex. destruct (decide (Exists (fun t => (snd t, p_type, owl_Restriction) ∈ g /\ (snd t, p_onProperty, a) ∈ g) ts)) as [Hd|Hd].
      + assert (exists t, t ∈ ts /\ restr_of (snd t) a) as Hx.
        { apply Exists_exists in Hd as (t & Ht & [K1 K2]). exists t. split; [by apply elem_of_list_In|]. split; [done|]. split; [done|].
          by destruct Hex as (t' & _ & _ & _ & ?). }
        destruct (H4 Hx) as (t' & X1 & X2 & X3). exists t'. split; [by right|done].
      + destruct Hex as (t & Ht & Hrt). apply elem_of_cons in Ht as [->|Ht].
        * simpl in Hrt. pose proof (Hu _ Hrt) as ->. exists (c, p_subClassOf, o). split; [left|]. split; [done|].
          rewrite H5. { rewrite dget_dset, decide_True by done. unfold i. simpl snd. by rewrite E5. }
          intros (t & Ht & [K1 [K2 _]]). apply Hd, Exists_exists. exists t. split; [by apply elem_of_list_In|done].
        * destruct Hd. apply Exists_exists. exists t. split; [by apply elem_of_list_In|]. destruct Hrt as (? & ? & _). done.
    - intros Hn. rewrite H5. { rewrite dget_dset, decide_False; [done|]. intros <-. apply Hn. exists (c, p_subClassOf, o). split; [left|done]. }
      intros (t & Ht & K). apply Hn. exists t. split; [by right|done].
  Qed.

  Lemma dget_nil {A} a : dget (@nil (term * A)) a = None.
  Proof. done. Qed.

  Lemma own_spec c :
    exists d, get_attributes g enum truthy c = Ok d /\ NoDup d.*1 /\
      forall a,
        (restricts g c a -> exists dt, dget d a = Some (Info (get_default g enum a c) (bool_decide (get_default g enum a c = None)) dt)) /\
        (~ restricts g c a -> in_domain g c a -> dget d a = Some (Info (get_default g enum a c) false None)) /\
        (~ declares g c a -> dget d a = None).
  Proof.
    unfold get_attributes.
    destruct (case1_fold c (enum (None, p_domain, Some c)) []) as (d1 & H1 & H2 & H3).
    { constructor. } { intros t Ht. by apply elem_enum in Ht as [? _]. }
    rewrite H1.
    destruct (case2_fold c (enum (Some c, p_subClassOf, None)) d1) as (d2 & H4 & H5 & H6).
    { done. } { intros t Ht. by apply enum_subj_inv. }
    exists d2. split; [done|]. split; [done|]. intros a. destruct (H3 a) as [A1 A2]. destruct (H6 a) as [B1 B2].
    assert (restricts g c a <-> exists t, t ∈ enum (Some c, p_subClassOf, None) /\ restr_of (snd t) a) as Hr.
    { split.
      - intros [Ha (r & R1 & R2 & R3)]. exists (c, p_subClassOf, r). split; [by apply enum_subj|]. done.
      - intros (t & Ht & R1 & R2 & R3). apply enum_subj_inv in Ht as [Ht Hf]. split; [done|].
        destruct t as [[? ?] r]. injection Hf as -> ->. exists r. done. }
    assert (in_domain g c a <-> dom_ok a /\ a ∈ (enum (None, p_domain, Some c)).*1.*1) as Hd.
    { unfold in_domain, dom_ok. split.
      - intros (D1 & D2 & D3 & D4). split; [done|]. rewrite <- list_fmap_compose. apply elem_of_list_fmap.
        exists (a, p_domain, c). split; [done|]. apply enum_obj_inv. split; [done|]. by exists a.
      - intros [(D1 & D2 & D3) D4]. rewrite <- list_fmap_compose in D4. apply elem_of_list_fmap in D4 as (t & -> & Ht).
        apply enum_obj_inv in Ht as [Ht [s ->]]. done. }
    split; [|split].
    - intros Hx. apply Hr in Hx. destruct (B1 Hx) as (t & _ & _ & ->). eauto.
    - intros Hn Hx. rewrite B2 by (by rewrite <- Hr). apply Hd in Hx as [? ?]. auto.
    - intros Hn. unfold declares in Hn. rewrite B2 by (rewrite <- Hr; tauto). rewrite A2 by (rewrite <- Hd; tauto). done.
  Qed.
End Own.

(** ** Inherited attributes *)
Section Merge.
  Context (g : ograph) (enum : pattern -> list otriple) (truthy : term -> bool).
  Context (He : enum_ok g enum) (Hwf : wf_onto g).

  Definition comb (x v : ainfo) : ainfo :=
    Info (py_or truthy (i_default x) (i_default v)) (i_obl x || i_obl v) (py_or truthy (i_dt x) (i_dt v)).
  Definition e0 := Info None false None.
  Definition comb_opt (x v : option ainfo) : option ainfo :=
    match v with None => x | Some v => Some (comb (default e0 x) v) end.

  Lemma merge1_get d a v a' :
    dget (merge1 truthy d (a, v)) a' = if decide (a = a') then Some (comb (default e0 (dget d a)) v) else dget d a'.
  Proof. unfold merge1. by rewrite dget_dset. Qed.
  Lemma fold_merge own : forall d, NoDup own.*1 -> NoDup d.*1 ->
    NoDup (foldl (merge1 truthy) d own).*1 /\
    forall a, dget (foldl (merge1 truthy) d own) a = comb_opt (dget d a) (dget own a).
  Proof.
    induction own as [|[k v] own IH]; intros d Hn Hd; simpl; [done|].
    apply stdpp.list.NoDup_cons in Hn as [Hk Hn]. cbn [fst] in Hk.
    destruct (IH (merge1 truthy d (k, v)) Hn) as [I1 I2]. { by apply dset_nodup. }
    split; [done|]. intros a. rewrite I2, merge1_get. case_decide as Hc; [|done]. subst.
    destruct (dget own a) eqn:E; [|done]. destruct Hk. apply dget_keys. by rewrite E.
  Qed.

  (** The entry that class c itself contributes for a. *)
  Definition entry_of (c a : term) : option ainfo :=
    match get_attributes g enum truthy c with Ok d => dget d a | Err _ => None end.
  Lemma merge_all_spec cs : forall d, NoDup d.*1 ->
    exists d', merge_all g enum truthy d cs = Ok d' /\ NoDup d'.*1 /\
      forall a, dget d' a = foldl (fun x c => comb_opt x (entry_of c a)) (dget d a) cs.
  Proof.
    induction cs as [|c cs IH]; intros d Hd; simpl; [by exists d|].
    destruct (own_spec g enum truthy He Hwf c) as (own & H1 & H2 & _). rewrite H1.
    destruct (fold_merge own d H2 Hd) as [F1 F2].
    destruct (IH _ F1) as (d' & I1 & I2 & I3). exists d'. split; [done|]. split; [done|].
    intros a. rewrite I3, F2. assert (entry_of c a = dget own a) as -> by (unfold entry_of; by rewrite H1). done.
  Qed.

  Definition truthy_opt (x : option term) : Prop := exists t, x = Some t /\ truthy t = true.
  Lemma py_or_cases x y : (truthy_opt x /\ py_or truthy x y = x) \/ (~ truthy_opt x /\ py_or truthy x y = y).
  Proof.
    unfold py_or, truthy_opt. destruct x as [t|]; [|right; split; [by intros (? & ? & _)|done]].
    destruct (truthy t) eqn:E; [left; eauto|right]. split; [|done]. intros (t' & [= <-] & ?). congruence.
  Qed.

  Lemma fold_comb a cs : forall x,
    let r := foldl (fun x c => comb_opt x (entry_of c a)) x cs in
    (is_Some r <-> is_Some x \/ exists c, c ∈ cs /\ is_Some (entry_of c a)) /\
    (i_obl (default e0 r) = true <-> i_obl (default e0 x) = true \/ exists c i, c ∈ cs /\ entry_of c a = Some i /\ i_obl i = true) /\
    (forall t, i_default (default e0 r) = Some t ->
       i_default (default e0 x) = Some t \/ exists c i, c ∈ cs /\ entry_of c a = Some i /\ i_default i = Some t) /\
    (truthy_opt (i_default (default e0 x)) \/ (exists c i, c ∈ cs /\ entry_of c a = Some i /\ truthy_opt (i_default i)) ->
       truthy_opt (i_default (default e0 r))) /\
    ((forall c, c ∈ cs -> entry_of c a = None) -> r = x).
  Proof.
    induction cs as [|c cs IH]; intros x; cbn [foldl]; cbv zeta.
    - assert (forall c, c ∉ (@nil term)) as Hnil by (intros c; apply not_elem_of_nil).
      split; [naive_solver|]. split; [naive_solver|]. split; [naive_solver|]. split; [naive_solver|done].
    - specialize (IH (comb_opt x (entry_of c a))). cbv zeta in IH.
      set (r := foldl _ _ _) in *. clearbody r. destruct IH as (I1 & I2 & I3 & I4 & I5).
      destruct (entry_of c a) as [v|] eqn:E; simpl in *.
      + split; [|split; [|split; [|split]]].
        * rewrite I1. split; [|by left; eauto]. intros _. right. exists c. split; [left|by rewrite E].
        * rewrite I2, orb_true_iff. split.
          -- intros [[H|H]|(c' & i & H1 & H2 & H3)]; [by left|right; exists c, v; split; [left|done]|].
             right. exists c', i. split; [by right|done].
          -- intros [H|(c' & i & H1 & H2 & H3)]; [by left; left|]. apply elem_of_cons in H1 as [->|H1].
             { left. right. congruence. } { right. eauto. }
        * intros t Ht. apply I3 in Ht as [Ht|(c' & i & H1 & H2 & H3)].
          -- destruct (py_or_cases (i_default (default e0 x)) (i_default v)) as [[_ Hp]|[_ Hp]]; rewrite Hp in Ht; [by left|].
             right. exists c, v. split; [left|done].
          -- right. exists c', i. split; [by right|done].
        * intros H. apply I4.
          destruct (py_or_cases (i_default (default e0 x)) (i_default v)) as [[Hp ->]|[Hp ->]]; [by left|].
          destruct H as [H|(c' & i & H1 & H2 & H3)]; [done|]. apply elem_of_cons in H1 as [->|H1].
          { left. congruence. } { right. eauto. }
        * intros H. specialize (H c ltac:(left)). congruence.
      + split; [|split; [|split; [|split]]].
        * rewrite I1. split; (intros [H|(c' & H1 & H2)]; [by left|]).
          -- right. exists c'. split; [by right|done].
          -- apply elem_of_cons in H1 as [->|H1]; [rewrite E in H2; by destruct H2|right; eauto].
        * rewrite I2. split; (intros [H|(c' & i & H1 & H2)]; [by left|]).
          -- right. exists c', i. split; [by right|done].
          -- apply elem_of_cons in H1 as [->|H1]; [destruct H2; congruence|right; eauto].
        * intros t Ht. apply I3 in Ht as [Ht|(c' & i & H1 & H2)]; [by left|]. right. exists c', i. split; [by right|done].
        * intros H. apply I4. destruct H as [H|(c' & i & H1 & H2 & H3)]; [by left|].
          apply elem_of_cons in H1 as [->|H1]; [congruence|right; eauto].
        * intros H. apply I5. intros c' Hc. apply H. by right.
  Qed.

  Lemma is_attr_dec a : Decision (is_attr g a).
  Proof.
    unfold is_attr. destruct (decide ((a, p_type, owl_DatatypeProperty) ∈ g)) as [H|H]; [|right; tauto].
    destruct a as [n|n|n]; [left; eauto|right; intros [_ [? ?]]; done..].
  Qed.
  Lemma restricts_dec c a : Decision (restricts g c a).
  Proof.
    unfold restricts. destruct (is_attr_dec a) as [H|H]; [|right; tauto].
    destruct (decide (Exists (fun t => (snd t, p_type, owl_Restriction) ∈ g /\ (snd t, p_onProperty, a) ∈ g)
                        (enum (Some c, p_subClassOf, None)))) as [Hx|Hx].
    - left. split; [done|]. apply Exists_exists in Hx as (t & Ht & R1 & R2). apply elem_of_list_In in Ht.
      apply (enum_subj_inv g enum truthy He) in Ht as [Ht Hf]. destruct t as [[? ?] r]. injection Hf as -> ->. exists r. done.
    - right. intros [_ (r & R1 & R2 & R3)]. apply Hx, Exists_exists. exists (c, p_subClassOf, r).
      split; [|done]. by apply elem_of_list_In, (enum_subj g enum truthy He).
  Qed.
  Lemma declares_dec c a : Decision (declares g c a).
  Proof.
    unfold declares. destruct (restricts_dec c a) as [H|H]; [left; tauto|].
    unfold in_domain. destruct (is_attr_dec a) as [Ha|Ha]; [|right; tauto].
    destruct (decide (a <> owl_topDataProperty /\ a <> owl_bottomDataProperty /\ (a, p_domain, c) ∈ g)); [left|right]; tauto.
  Qed.

  Lemma entry_spec c a :
    (is_Some (entry_of c a) <-> declares g c a) /\
    (forall i, entry_of c a = Some i ->
       i_default i = get_default g enum a c /\
       (i_obl i = true <-> restricts g c a /\ get_default g enum a c = None)).
  Proof.
    unfold entry_of. destruct (own_spec g enum truthy He Hwf c) as (d & -> & _ & H). destruct (H a) as (H1 & H2 & H3).
    destruct (declares_dec c a) as [Hx|Hx].
    2: { rewrite H3 by done. split; [|done]. split; [by intros []|done]. }
    destruct (restricts_dec c a) as [Hr|Hr].
    - destruct (H1 Hr) as [dt E]. rewrite E. split; [split; eauto|]. intros i [= <-]. simpl. split; [done|].
      rewrite bool_decide_eq_true. tauto.
    - destruct Hx as [Hx|Hx]; [done|]. rewrite (H2 Hr Hx). split; [split; [by right|eauto]|].
      intros i [= <-]. simpl. split; [done|]. split; [done|]. by intros [? _].
  Qed.
End Merge.

(** ** C48: attributes *)

(** The attributes of a class whose superclasses are supers, in any order. *)
Theorem C48_attributes g enum truthy supers :
  enum_ok g enum -> wf_onto g ->
  exists d, attributes g enum truthy supers = Ok d /\ NoDup d.*1 /\
    (forall a, a ∈ d.*1 <-> exists c, c ∈ supers /\ declares g c a) /\
    (forall a i, (a, i) ∈ d ->
       (i_obl i = true <-> exists c, c ∈ supers /\ restricts g c a /\ forall v, ~ has_default g c a v) /\
       (forall v, i_default i = Some v -> exists c, c ∈ supers /\ declares g c a /\ has_default g c a v) /\
       (i_default i = None -> forall c v, c ∈ supers -> declares g c a -> has_default g c a v ->
          exists v', has_default g c a v' /\ truthy v' = false)).
Proof.
  intros He Hwf. destruct (merge_all_spec g enum truthy He Hwf supers [] ltac:(constructor)) as (d & H1 & H2 & H3).
  exists d. split; [done|]. split; [done|]. split.
  - intros a. rewrite <- dget_keys, H3. cbn [dget].
    destruct (fold_comb g enum truthy a supers None) as (F1 & _). cbv zeta in F1. rewrite F1.
    split.
    + intros [[? ?]|(c & Hc & Hs)]; [done|]. exists c. split; [done|]. by apply (entry_spec g enum truthy He Hwf) in Hs.
    + intros (c & Hc & Hs). right. exists c. split; [done|]. by apply (entry_spec g enum truthy He Hwf).
  - intros a i Hi. apply dget_in in Hi; [|done]. rewrite H3 in Hi. cbn [dget] in Hi.
    destruct (fold_comb g enum truthy a supers None) as (F1 & F2 & F3 & F4 & _). cbv zeta in *.
    rewrite Hi in *. simpl in F2, F3, F4. split; [|split].
    + rewrite F2. split.
      * intros [?|(c & j & Hc & Hj & Ho)]; [done|]. exists c. split; [done|].
        apply (entry_spec g enum truthy He Hwf) in Hj as [_ Hj]. apply Hj in Ho as [Hr Hn]. split; [done|].
        by apply (get_default_none g enum truthy He Hwf).
      * intros (c & Hc & Hr & Hn). right. apply (get_default_none g enum truthy He Hwf) in Hn.
        destruct (entry_spec g enum truthy He Hwf c a) as [E1 E2].
        destruct E1 as [_ [j Hj]]; [by left|]. exists c, j. split; [done|]. split; [done|].
        destruct (E2 j Hj) as [_ E3]. by apply E3.
    + intros v Hv. apply F3 in Hv as [?|(c & j & Hc & Hj & Hv)]; [done|]. exists c. split; [done|].
      destruct (entry_spec g enum truthy He Hwf c a) as [E1 E2]. split; [apply E1; eauto|].
      destruct (E2 j Hj) as [E3 _]. rewrite E3 in Hv. by apply (get_default_some g enum truthy He Hwf).
    + intros Hn c v Hc Hd Hv. destruct (entry_spec g enum truthy He Hwf c a) as [E1 E2].
      apply E1 in Hd as [j Hj]. destruct (E2 j Hj) as [E3 _].
      destruct (get_default g enum a c) as [v'|] eqn:E.
      2: { exfalso. by apply (proj1 (get_default_none g enum truthy He Hwf c a) E v). }
      exists v'. split; [by apply (get_default_some g enum truthy He Hwf)|].
      destruct (truthy v') eqn:Ht; [|done]. destruct F4 as (t & Ht' & _); [|congruence].
      right. exists c, j. split; [done|]. split; [done|]. exists v'. by rewrite E3.
Qed.

(** An attribute with one declaring class has exactly that class's default. *)
Theorem C48_single_declaration g enum truthy pre post c a :
  enum_ok g enum -> wf_onto g -> declares g c a ->
  (forall c', c' ∈ pre ++ post -> ~ declares g c' a) ->
  exists d i, attributes g enum truthy (pre ++ c :: post) = Ok d /\ (a, i) ∈ d /\
    (forall v, i_default i = Some v -> has_default g c a v) /\
    (i_default i = None <-> forall v, ~ has_default g c a v) /\
    (i_obl i = true <-> restricts g c a /\ forall v, ~ has_default g c a v).
Proof.
  intros He Hwf Hd Hno.
  destruct (merge_all_spec g enum truthy He Hwf (pre ++ c :: post) [] ltac:(constructor)) as (d & H1 & H2 & H3).
  destruct (entry_spec g enum truthy He Hwf c a) as [E1 E2]. apply E1 in Hd as [j Hj]. destruct (E2 j Hj) as [E3 E4].
  assert (forall c', c' ∈ pre ++ post -> entry_of g enum truthy c' a = None) as Hn.
  { intros c' Hc'. destruct (entry_of g enum truthy c' a) eqn:E; [|done]. exfalso. apply (Hno c' Hc').
    apply (entry_spec g enum truthy He Hwf). by rewrite E. }
  exists d, (comb truthy e0 j). split; [done|]. split.
  { apply dget_in; [done|]. rewrite H3, foldl_app. cbn [foldl dget].
    destruct (fold_comb g enum truthy a pre None) as (_ & _ & _ & _ & F). cbv zeta in F. rewrite F.
    2: { intros c' Hc. apply Hn, elem_of_app. by left. }
    rewrite Hj. simpl.
    destruct (fold_comb g enum truthy a post (Some (comb truthy e0 j))) as (_ & _ & _ & _ & G). cbv zeta in G. rewrite G; [done|].
    intros c' Hc. apply Hn, elem_of_app. by right. }
  simpl. rewrite E3. split; [|split].
  - intros v. apply (get_default_some g enum truthy He Hwf).
  - apply (get_default_none g enum truthy He Hwf).
  - rewrite E4. by rewrite (get_default_none g enum truthy He Hwf).
Qed.

(** Together with C22: the attributes are those of the class and of everything
    above it in the hierarchy. *)
Theorem C48_inherited g iri :
  wf_onto g -> exists n, forall pick fuel enum truthy, pick_ok pick -> (n <= fuel)%nat -> enum_ok g enum ->
  exists l, superclasses pick g p_subClassOf class_blacklist fuel iri = Some l /\
    forall supers, supers ≡ₚ l ->
    exists d, attributes g enum truthy supers = Ok d /\ NoDup d.*1 /\
      forall a, a ∈ d.*1 <->
        exists c, (c = iri \/ (closure (up1 g p_subClassOf) iri c /\ c ∉ class_blacklist /\ known g c = true)) /\
                  declares g c a.
Proof.
  intros Hwf. destruct (C22_superclasses_exact g p_subClassOf class_blacklist iri) as [n Hn]; [by left|].
  exists n. intros pick fuel enum truthy Hp Hf He. destruct (Hn pick fuel Hp Hf) as (l & Hl & _ & Hel).
  exists l. split; [done|]. intros supers Hs.
  destruct (C48_attributes g enum truthy supers He Hwf) as (d & H1 & H2 & H3 & _).
  exists d. split; [done|]. split; [done|]. intros a. rewrite H3. split; intros (c & Hc & Hd); exists c; (split; [|done]).
  - rewrite Hs in Hc. by apply Hel.
  - rewrite Hs. by apply Hel.
Qed.

(** ** C48: constructor arguments *)
Section Values.
  Context {V : Type} (argname : term -> N) (lower : N -> N).

  (** No attribute can be meant by another one's name. *)
  Definition unambiguous (as_ : list term) : Prop :=
    forall a b, a ∈ as_ -> b ∈ as_ -> a <> b ->
      argname a <> argname b /\ argname a <> lower (argname b) /\ lower (argname a) <> lower (argname b).

  (** The value that the keywords give to a. *)
  Definition given (kw : gmap N V) (a : term) : option V :=
    match kw !! argname a with Some v => Some v | None => kw !! lower (argname a) end.
  Definition resulting (kw : gmap N V) (ai : term * ainfo) : option (term * aval V) :=
    match given kw (fst ai) with
    | Some v => Some (fst ai, Given v)
    | None => (fun t => (fst ai, Dflt t)) <$> i_default (snd ai)
    end.
  (** The keyword k is used for a. *)
  Definition meant (kw : gmap N V) (k : N) (a : term) : Prop :=
    k = argname a \/ (k = lower (argname a) /\ kw !! argname a = None).

  Definition used (kw : gmap N V) (a : term) : option N :=
    match kw !! argname a with
    | Some _ => Some (argname a)
    | None => match kw !! lower (argname a) with Some _ => Some (lower (argname a)) | None => None end
    end.
  Lemma take_spec force kw d : forall kw',
    NoDup d.*1 -> unambiguous d.*1 ->
    (forall a, a ∈ d.*1 -> kw' !! argname a = kw !! argname a /\ kw' !! lower (argname a) = kw !! lower (argname a)) ->
    (force = false /\ (exists a i, (a, i) ∈ d /\ i_obl i = true /\ given kw a = None) /\
       take_values V argname lower force d kw' = Err TypeError) \/
    ((force = true \/ forall a i, (a, i) ∈ d -> i_obl i = true -> given kw a <> None) /\
     exists rest, take_values V argname lower force d kw' = Ok (omap (resulting kw) d, rest) /\
       forall k, rest !! k = if decide (k ∈ omap (used kw) d.*1) then None else kw' !! k).
  Proof.
    induction d as [|[a i] d IH]; intros kw' Hnd Hun Heq.
    { right. split; [right; intros a i H; by apply elem_of_nil in H|]. exists kw'. split; [done|].
      intros k. case_decide as Hd; [by apply elem_of_nil in Hd|done]. }
    cbn [fmap list_fmap] in Hnd, Hun. apply stdpp.list.NoDup_cons in Hnd as [Ha Hnd]. cbn [fst] in *.
    assert (a ∈ ((a, i) :: d).*1) as Hina by (simpl; left).
    destruct (Heq a Hina) as [E1 E2].
    assert (unambiguous d.*1) as Hun'. { intros x y Hx Hy. apply Hun; by right. }
    assert (forall b, b ∈ d.*1 -> b <> a) as Hne. { intros b Hb ->. done. }
    cbn [take_values]. rewrite E1, E2.
    (* one step with the keyword table kw1 and result v *)
    assert (forall kw1 v, resulting kw (a, i) = v ->
       (forall k, kw1 !! k = if decide (Some k = used kw a) then None else kw' !! k) ->
       (i_obl i = true -> force = false -> given kw a <> None) ->
       (force = false /\ (exists a' i', (a', i') ∈ (a, i) :: d /\ i_obl i' = true /\ given kw a' = None) /\
         match take_values V argname lower force d kw1 with Ok (r, k) => Ok (option_list v ++ r, k) | Err e => Err e end = Err TypeError) \/
       ((force = true \/ forall a' i', (a', i') ∈ (a, i) :: d -> i_obl i' = true -> given kw a' <> None) /\
         exists rest, match take_values V argname lower force d kw1 with Ok (r, k) => Ok (option_list v ++ r, k) | Err e => Err e end
            = Ok (omap (resulting kw) ((a, i) :: d), rest) /\
         forall k, rest !! k = if decide (k ∈ omap (used kw) ((a, i) :: d).*1) then None else kw' !! k)) as Hstep.
    { intros kw1 v Hv Hk Hobl. destruct (IH kw1 Hnd Hun') as [(F1 & (a' & i' & G1 & G2 & G3) & F3)|(F1 & rest & F2 & F3)].
      - intros b Hb. specialize (Hne b Hb). destruct (Heq b) as [B1 B2]; [simpl; by right|].
        destruct (Hun a b) as (N1 & N2 & N3); [left|by right|done|]. destruct (Hun b a) as (M1 & M2 & M3); [by right|left|done|].
        rewrite !Hk. unfold used.
        destruct (kw !! argname a); [|destruct (kw !! lower (argname a))]; repeat rewrite decide_False by congruence; done.
      - left. split; [done|]. split; [exists a', i'; split; [by right|done]|]. by rewrite F3.
      - right. split.
        { destruct F1 as [?|F1]; [by left|]. destruct force; [by left|]. right. intros a' i' Hin. apply elem_of_cons in Hin as [[= -> ->]|Hin]; [|by apply F1].
          intros Ho. by apply Hobl. }
        exists rest. rewrite F2. split.
        { cbn [omap list_omap]. rewrite Hv. by destruct v. }
        intros k. rewrite F3, Hk. simpl. destruct (used kw a) as [u|] eqn:Eu.
        + destruct (decide (Some k = Some u)) as [[= ->]|Hd].
          * rewrite (decide_True (P := u ∈ u :: _)) by left. by case_decide.
          * destruct (decide (k ∈ omap (used kw) d.*1)) as [Hi|Hi].
            { rewrite decide_True; [done|by right]. }
            { rewrite decide_False; [done|]. intros Hx. apply elem_of_cons in Hx as [->|Hx]; done. }
        + rewrite (decide_False (P := Some k = None)) by done. done. }
    destruct (kw !! argname a) as [v|] eqn:K1.
    { apply (Hstep (delete (argname a) kw') (Some (a, Given v))).
      - unfold resulting, given. simpl. by rewrite K1.
      - intros k. unfold used. rewrite K1. case_decide as Hd; [injection Hd as ->; apply lookup_delete|].
        apply lookup_delete_ne. congruence.
      - intros _ _. unfold given. by rewrite K1. }
    destruct (kw !! lower (argname a)) as [v|] eqn:K2.
    { apply (Hstep (delete (lower (argname a)) kw') (Some (a, Given v))).
      - unfold resulting, given. simpl. by rewrite K1, K2.
      - intros k. unfold used. rewrite K1, K2. case_decide as Hd; [injection Hd as ->; apply lookup_delete|].
        apply lookup_delete_ne. congruence.
      - intros _ _. unfold given. by rewrite K1, K2. }
    assert (given kw a = None) as Hg by (unfold given; by rewrite K1).
    assert (forall k, kw' !! k = if decide (Some k = used kw a) then None else kw' !! k) as Hid.
    { intros k. unfold used. rewrite K1, K2. by rewrite decide_False. }
    destruct (negb force && i_obl i) eqn:E3.
    { left. apply andb_true_iff in E3 as [E3 E4]. apply negb_true_iff in E3. split; [done|]. split; [|done].
      exists a, i. split; [left|done]. }
    assert (i_obl i = true -> force = false -> given kw a <> None) as Hobl.
    { intros Ho Hf. rewrite Hf, Ho in E3. done. }
    destruct (i_default i) as [t|] eqn:E4.
    - apply (Hstep kw' (Some (a, Dflt t))); [|done|done]. unfold resulting. simpl. by rewrite Hg, E4.
    - apply (Hstep kw' None); [|done|done]. unfold resulting. simpl. by rewrite Hg, E4.
  Qed.
End Values.

(** The constructor of a class with the attributes d accepts the keywords kw iff
    they give every obligatory attribute a value and every keyword is meant for an
    attribute; then every attribute has the given value, else its default. *)
Theorem C48_constructor {V} (argname : term -> N) (lower : N -> N) (d : adict) (kw : gmap N V) :
  NoDup d.*1 -> unambiguous argname lower d.*1 ->
  let complete := forall a i, (a, i) ∈ d -> i_obl i = true -> given argname lower kw a <> None in
  let expected := forall k, is_Some (kw !! k) -> exists a, a ∈ d.*1 /\ meant argname lower kw k a in
  (complete /\ expected -> attributes_values V argname lower false d kw = Ok (omap (resulting argname lower kw) d)) /\
  (~ (complete /\ expected) -> attributes_values V argname lower false d kw = Err TypeError).
Proof.
  intros Hnd Hun complete expected. unfold attributes_values.
  destruct (take_spec argname lower false kw d kw Hnd Hun) as [(_ & (a & i & H1 & H2 & H3) & ->)|([?|H1] & rest & -> & H2)]; [done| |done|].
  { split; [|done]. intros [Hc _]. by destruct (Hc a i). }
  assert (rest = ∅ <-> expected) as Hr.
  { unfold expected, meant. split.
    - intros -> k [v Hk]. specialize (H2 k). rewrite lookup_empty in H2. case_decide as Hd; [|congruence].
      apply elem_of_list_omap in Hd as (a & Ha & Hu). exists a. split; [done|]. unfold used in Hu.
      destruct (kw !! argname a) eqn:E; [left; congruence|]. right. destruct (kw !! lower (argname a)); [|done].
      split; [congruence|done].
    - intros Hx. apply map_empty. intros k. rewrite H2. case_decide as Hd; [done|].
      destruct (kw !! k) as [v|] eqn:E; [|done]. exfalso. destruct (Hx k) as (a & Ha & Hm); [eauto|].
      apply Hd, elem_of_list_omap. exists a. split; [done|]. unfold used. destruct Hm as [->|[-> Hm]].
      + by rewrite E.
      + by rewrite Hm, E. }
  simpl. destruct (decide (rest = ∅)) as [He|He].
  - rewrite bool_decide_eq_false_2 by (intros Hn; by apply Hn). split; [done|]. intros Hn. exfalso. apply Hn. split; [done|by apply Hr].
  - rewrite bool_decide_eq_true_2 by done. split; [|done]. intros [_ Hx]. by apply Hr in Hx.
Qed.

(** With _force=True nothing is demanded or rejected. *)
Theorem C48_force {V} (argname : term -> N) (lower : N -> N) (d : adict) (kw : gmap N V) :
  NoDup d.*1 -> unambiguous argname lower d.*1 ->
  attributes_values V argname lower true d kw = Ok (omap (resulting argname lower kw) d).
Proof.
  intros Hnd Hun. unfold attributes_values.
  by destruct (take_spec argname lower true kw d kw Hnd Hun) as [(? & _)|(_ & rest & -> & _)].
Qed.

(** An attribute is found under its name and its lower-case name, and nothing else. *)
Theorem C48_by_argname (argname : term -> N) (lower : N -> N) (d : adict) n a :
  unambiguous argname lower d.*1 ->
  by_argname argname lower d n = Some a <->
  a ∈ d.*1 /\ (n = argname a \/ n = lower (argname a)).
Proof.
  induction d as [|[b i] d IH]; intros Hun; simpl.
  - split; [done|]. intros [H _]. by apply elem_of_nil in H.
  - assert (unambiguous argname lower d.*1) as Hun'. { intros x y Hx Hy. apply Hun; simpl; by right. }
    assert (b ∈ ((b, i) :: d).*1) as Hb by (simpl; left).
    assert (forall x, x ∈ d.*1 -> x ∈ ((b, i) :: d).*1) as Hd by (intros; simpl; by right).
    rewrite elem_of_cons. destruct (decide (argname b = n)) as [Hn|Hn].
    { split; [intros [= <-]; split; [by left|by left]|]. intros [[->|Ha] Hor]; [done|].
      destruct (decide (a = b)) as [->|Hne]; [done|]. destruct (Hun b a Hb (Hd a Ha) ltac:(congruence)) as (N1 & N2 & N3). naive_solver. }
    destruct (decide (lower (argname b) = n)) as [Hl|Hl].
    { split; [intros [= <-]; split; [by left|by right]|]. intros [[->|Ha] Hor]; [done|].
      destruct (decide (a = b)) as [->|Hne]; [done|].
      destruct (Hun a b (Hd a Ha) Hb Hne) as (N1 & N2 & N3). naive_solver. }
    rewrite IH by done. split; [naive_solver|]. intros [[->|Ha] Hor]; [naive_solver|done].
Qed.

(** cuba.Nothing and its subclasses cannot be instantiated, wrappers only with a
    session; everything else is decided by the arguments. *)
Theorem C48_call {V} g enum truthy (argname : term -> N) (lower : N -> N) isW isN session force supers (kw : gmap N V) :
  enum_ok g enum -> wf_onto g ->
  exists d, attributes g enum truthy supers = Ok d /\
    (isN = true \/ (isW = true /\ session = false) ->
       call_class g enum truthy V argname lower isW isN session force supers kw = Err TypeError) /\
    (isN = false -> (isW = true -> session = true) ->
       call_class g enum truthy V argname lower isW isN session force supers kw =
       attributes_values V argname lower force d kw).
Proof.
  intros He Hwf. destruct (C48_attributes g enum truthy supers He Hwf) as (d & H1 & _). exists d.
  split; [done|]. unfold call_class. rewrite H1. destruct isW, isN, session; simpl; naive_solver.
Qed.

(** ** C48: attributes declared in YAML *)
Definition fresh (g : ograph) (b : term) : Prop := forall s p o, (s, p, o) ∈ g -> s <> b /\ o <> b.

Lemma elem_add_attribute g c a dflt b1 b2 one s p o :
  (s, p, o) ∈ add_attribute g c a dflt b1 b2 one <->
  (s, p, o) ∈ g \/ (s = c /\ p = p_subClassOf /\ o = b1) \/ (s = b1 /\ p = p_type /\ o = owl_Restriction) \/
  (s = b1 /\ p = p_cardinality /\ o = one) \/ (s = b1 /\ p = p_onProperty /\ o = a) \/
  exists v, dflt = Some v /\ ((s = c /\ p = p_default /\ o = b2) \/ (s = b2 /\ p = p_default_attribute /\ o = a) \/
     (s = b2 /\ p = p_default_value /\ o = v)).
Proof.
  unfold add_attribute. rewrite !elem_of_union, !elem_of_singleton.
  destruct dflt as [v|]; rewrite ?elem_of_union, ?elem_of_singleton, ?elem_of_empty; split; intros H;
    repeat match goal with
    | H : _ \/ _ |- _ => destruct H as [H|H]
    | H : exists _, _ |- _ => destruct H as (? & ? & H)
    | H : _ /\ _ |- _ => destruct H
    end; try done; simplify_eq; naive_solver.
Qed.

Ltac dd := repeat match goal with
    | H : _ \/ _ |- _ => destruct H as [H|H]
    | H : exists _, _ |- _ => destruct H as (? & ? & H)
    | H : _ /\ _ |- _ => destruct H
    end; simplify_eq; try done.

(** The YAML parser adds exactly one declaration, and its default if there is one;
    the result is again an ontology whose attributes can be read. *)
Theorem C48_yaml g nc na dflt n1 n2 one :
  wf_onto g -> n1 <> n2 -> fresh g (BN n1) -> fresh g (BN n2) ->
  let c := IRI nc in let a := IRI na in
  is_attr g a ->
  (forall v, dflt = Some v -> forall k, v <> BN k) -> (forall k, one <> BN k) ->
  let g' := add_attribute g c a dflt (BN n1) (BN n2) one in
  wf_onto g' /\
  (forall c' a', restricts g' c' a' <-> restricts g c' a' \/ (c' = c /\ a' = a)) /\
  (forall c' a', declares g' c' a' <-> declares g c' a' \/ (c' = c /\ a' = a)) /\
  (forall c' a' v, has_default g' c' a' v <-> has_default g c' a' v \/ (c' = c /\ a' = a /\ dflt = Some v)).
Proof.
  intros Hwf Hn F1 F2 c a Ha Hd Ho g'.
  assert (forall s p o, (s, p, o) ∈ g' <-> _) as E by (intros; apply elem_add_attribute).
  assert (forall s p o, (s, p, o) ∈ g -> (s, p, o) ∈ g') as K0 by (intros; rewrite E; by left).
  assert ((c, p_subClassOf, BN n1) ∈ g') as K1 by (rewrite E; tauto).
  assert ((BN n1, p_type, owl_Restriction) ∈ g') as K2 by (rewrite E; tauto).
  assert ((BN n1, p_onProperty, a) ∈ g') as K3 by (rewrite E; tauto).
  assert (forall v, dflt = Some v -> (c, p_default, BN n2) ∈ g' /\ (BN n2, p_default_attribute, a) ∈ g' /\
     (BN n2, p_default_value, v) ∈ g') as K4.
  { intros v Hv. rewrite !E. repeat split; do 5 right; exists v; tauto. }
  assert (forall x, is_attr g' x <-> is_attr g x) as Hat.
  { intros x. unfold is_attr. split; [|intros []; eauto]. rewrite E. intros [H [n ->]]. split; [|eauto]. by dd. }
  assert (forall s o, (s, p_subClassOf, o) ∈ g' -> (s, p_subClassOf, o) ∈ g \/ (s = c /\ o = BN n1)) as L1.
  { intros s o. rewrite E. intros H. dd; auto. }
  assert (forall s o, s <> BN n1 -> (s, p_type, o) ∈ g' -> (s, p_type, o) ∈ g) as L2.
  { intros s o Hs. rewrite E. intros H. by dd. }
  assert (forall s o, (s, p_onProperty, o) ∈ g' -> (s <> BN n1 /\ (s, p_onProperty, o) ∈ g) \/ (s = BN n1 /\ o = a)) as L3.
  { intros s o. rewrite E. intros H. dd; auto. left. split; [|done]. by apply (F1 _ _ _ H). }
  assert (forall s o, (s, p_default, o) ∈ g' -> (o <> BN n2 /\ (s, p_default, o) ∈ g) \/ (s = c /\ o = BN n2 /\ exists v, dflt = Some v)) as L4.
  { intros s o. rewrite E. intros H. dd; eauto. left. split; [|done]. by apply (F2 _ _ _ H). }
  assert (forall s o, (s, p_default_attribute, o) ∈ g' -> (s <> BN n2 /\ (s, p_default_attribute, o) ∈ g) \/ (s = BN n2 /\ o = a)) as L5.
  { intros s o. rewrite E. intros H. dd; eauto. left. split; [|done]. by apply (F2 _ _ _ H). }
  assert (forall s o, (s, p_default_value, o) ∈ g' -> (s <> BN n2 /\ (s, p_default_value, o) ∈ g) \/ (s = BN n2 /\ dflt = Some o)) as L6.
  { intros s o. rewrite E. intros H. dd; eauto. left. split; [|done]. by apply (F2 _ _ _ H). }
  assert (forall n p o, (LIT n, p, o) ∉ g') as L7.
  { intros n p o. rewrite E. intros H. dd. by apply (wf_subj g Hwf) in H. }
  assert (forall s o, (s, p_domain, o) ∈ g' -> (s, p_domain, o) ∈ g) as L8.
  { intros s o. rewrite E. intros H. by dd. }
  clear E. clearbody g'.
  assert (forall c' a', restricts g' c' a' <-> restricts g c' a' \/ (c' = c /\ a' = a)) as Hr.
  { intros c' a'. unfold restricts. rewrite Hat. split.
    - intros (H1 & r & H2 & H3 & H4). destruct (L1 _ _ H2) as [H5|[-> ->]].
      + left. split; [done|]. destruct (F1 _ _ _ H5). exists r. split; [done|]. split; [by apply L2|].
        destruct (L3 _ _ H4) as [[_ ?]|[? _]]; done.
      + right. split; [done|]. destruct (L3 _ _ H4) as [[? _]|[_ ?]]; done.
    - intros [(H1 & r & H2 & H3 & H4)|[-> ->]].
      + split; [done|]. exists r. split; [by apply K0|]. split; by apply K0.
      + split; [done|]. exists (BN n1). done. }
  split; [|split; [done|split]].
  - split.
    + intros c' r H1 H2. destruct (L1 _ _ H1) as [H5|[-> ->]].
      * destruct (F1 _ _ _ H5). destruct (wf_on g Hwf c' r H5) as [x Hx]; [by apply L2|].
        exists x. intros a'. split.
        -- intros H6. destruct (L3 _ _ H6) as [[_ ?]|[? _]]; [by apply Hx|done].
        -- intros ->. by apply K0, Hx.
      * exists a. intros a'. split; [|by intros ->]. intros H6. destruct (L3 _ _ H6) as [[? _]|[_ ?]]; done.
    + done.
    + intros c' b H. destruct (L4 _ _ H) as [[H1 H2]|(-> & -> & v & Hv)].
      * destruct (wf_default g Hwf c' b H2) as [v Hv]. exists v. intros v'. split.
        -- intros H3. destruct (L6 _ _ H3) as [[_ ?]|[? _]]; [by apply Hv|done].
        -- intros ->. by apply K0, Hv.
      * exists v. intros v'. split.
        -- intros H3. destruct (L6 _ _ H3) as [[? _]|[_ H4]]; [done|]. congruence.
        -- intros ->. by apply K4.
  - intros c' a'. unfold declares. rewrite Hr. unfold in_domain. rewrite Hat.
    assert ((a', p_domain, c') ∈ g' <-> (a', p_domain, c') ∈ g) as -> by (split; auto). tauto.
  - intros c' a' v. unfold has_default. split.
    + intros (b & H1 & H2 & H3). destruct (L4 _ _ H1) as [[H4 H5]|(-> & -> & v' & Hv)].
      * left. exists b. split; [done|]. destruct (L5 _ _ H2) as [[_ ?]|[? _]]; [|done].
        destruct (L6 _ _ H3) as [[_ ?]|[? _]]; done.
      * right. destruct (L5 _ _ H2) as [[? _]|[_ ?]]; [done|]. destruct (L6 _ _ H3) as [[? _]|[_ ?]]; done.
    + intros [(b & H1 & H2 & H3)|(-> & -> & Hv)]; [exists b; split; [by apply K0|]; split; by apply K0|]. destruct (K4 v Hv) as (? & ? & ?). exists (BN n2). done.
Qed.

(** ** C49: datatypes *)
Definition ranged (g : ograph) (s d : term) : Prop := (s, p_range, d) ∈ g /\ d <> rdfs_Literal.

Lemma elem_ranges g enum supers d :
  enum_ok g enum -> d ∈ ranges enum supers <-> exists s, s ∈ supers /\ ranged g s d.
Proof.
  intros He. unfold ranges, ranged. rewrite elem_of_list_to_set, elem_of_list_filter, elem_of_list_join.
  split.
  - intros (Hne & l & Hd & Hl). apply elem_of_list_In, in_map_iff in Hl as (s & <- & Hs). apply elem_of_list_In in Hs.
    apply elem_of_list_In, in_map_iff in Hd as ([[s' p'] o] & <- & Ht). apply elem_of_list_In, He in Ht as [Ht Hm].
    simpl in Hm. apply andb_true_iff in Hm as [Hm _]. apply andb_true_iff in Hm as [Hm1 Hm2].
    apply bool_decide_eq_true in Hm1 as <-. apply bool_decide_eq_true in Hm2 as <-. exists s. done.
  - intros (s & Hs & Hr & Hne). split; [done|]. exists (map snd (enum (Some s, p_range, None))). split.
    + apply elem_of_list_In, in_map_iff. exists (s, p_range, d). split; [done|]. apply elem_of_list_In, He.
      split; [done|]. simpl. by rewrite !bool_decide_eq_true_2.
    + apply elem_of_list_In, in_map_iff. exists s. split; [done|]. by apply elem_of_list_In.
Qed.

(** The datatype of an attribute is the one range that it and the attributes above it
    have, apart from rdfs:Literal; without one there is none, with several the query
    raises.  For every graph and every order of enumeration. *)
Theorem C49_datatype g iri :
  exists n, forall pick fuel enum, pick_ok pick -> (n <= fuel)%nat -> enum_ok g enum ->
  exists l, superclasses pick g p_subPropertyOf attr_blacklist fuel iri = Some l /\
    forall supers, (forall x, x ∈ supers <-> x ∈ l) ->
    let above s := s = iri \/ (closure (up1 g p_subPropertyOf) iri s /\ s ∉ attr_blacklist /\ known g s = true) in
    let R d := exists s, above s /\ ranged g s d in
    (forall d, datatype enum supers = Ok (Some d) <-> R d /\ forall d', R d' -> d' = d) /\
    (datatype enum supers = Ok None <-> forall d, ~ R d) /\
    (datatype enum supers = Err RuntimeError <-> exists d d', R d /\ R d' /\ d <> d').
Proof.
  destruct (C22_superclasses_exact g p_subPropertyOf attr_blacklist iri) as [n Hn]; [by right|].
  exists n. intros pick fuel enum Hp Hf He. destruct (Hn pick fuel Hp Hf) as (l & Hl & _ & Hel).
  exists l. split; [done|]. intros supers Hs above R.
  assert (forall d, d ∈ elements (ranges enum supers) <-> R d) as HR.
  { intros d. rewrite elem_of_elements, (elem_ranges g enum supers d He). unfold R, above.
    split; intros (s & H1 & H2); exists s; (split; [|done]); [rewrite Hs in H1; by apply Hel|rewrite Hs; by apply Hel]. }
  unfold datatype. pose proof (NoDup_elements (ranges enum supers)) as Hnd.
  destruct (elements (ranges enum supers)) as [|x [|y r]] eqn:E.
  - assert (forall d, ~ R d) as Hno. { intros d Hd. apply HR in Hd. by apply elem_of_nil in Hd. }
    split; [|split].
    + intros d. split; [done|]. intros [H _]. by apply Hno in H.
    + done.
    + split; [done|]. intros (d & d' & H & _). by apply Hno in H.
  - assert (forall d, R d <-> d = x) as Hx. { intros d. rewrite <- HR. apply elem_of_list_singleton. }
    split; [|split].
    + intros d. split.
      * intros [= ->]. split; [by apply Hx|]. intros d' Hd'. by apply Hx.
      * intros [Hd _]. apply Hx in Hd as ->. done.
    + split; [done|]. intros H. destruct (H x). by apply Hx.
    + split; [done|]. intros (d & d' & H1 & H2 & H3). apply Hx in H1 as ->. apply Hx in H2 as ->. done.
  - assert (R x) as Hx by (apply HR; left). assert (R y) as Hy by (apply HR; right; left).
    assert (x <> y) as Hxy. { intros ->. apply stdpp.list.NoDup_cons in Hnd as [Hnd _]. apply Hnd. left. }
    split; [|split].
    + intros d. split; [done|]. intros [_ H]. destruct Hxy. rewrite (H x Hx). by rewrite (H y Hy).
    + split; [done|]. intros H. by destruct (H x).
    + split; [|done]. intros _. by exists x, y.
Qed.

(** ** Examples *)
Lemma triples_enum g : enum_ok g (triples g).
Proof. intros p t. unfold triples. rewrite elem_of_list_filter, elem_of_elements. tauto. Qed.

(** Two attributes, 201 and 202; class 301 has 201 with default 1, its subclass 302
    has 202 (obligatory), and 201 has the range 23. *)
Definition exA0 : ograph := list_to_set [
  (IRI 201, p_type, owl_DatatypeProperty); (IRI 202, p_type, owl_DatatypeProperty);
  (IRI 203, p_type, owl_DatatypeProperty);
  (IRI 202, p_subPropertyOf, IRI 203); (IRI 203, p_range, IRI 23); (IRI 202, p_range, rdfs_Literal);
  (IRI 201, p_range, IRI 24); (IRI 201, p_subPropertyOf, IRI 203);
  (IRI 301, p_type, owl_Class); (IRI 302, p_type, owl_Class); (IRI 302, p_subClassOf, IRI 301)].
Definition exA1 := add_attribute exA0 (IRI 301) (IRI 201) (Some (LIT 1)) (BN 1) (BN 2) (LIT 9).
Definition exA2 := add_attribute exA1 (IRI 302) (IRI 202) None (BN 3) (BN 4) (LIT 9).

Ltac in_list H := unfold exA0 in H; rewrite elem_of_list_to_set in H;
  repeat (apply elem_of_cons in H as [H|H]; [try discriminate|]); try (by apply elem_of_nil in H).
Lemma exA0_wf : wf_onto exA0.
Proof.
  split.
  - intros c r H1 H2. exfalso. in_list H2.
  - intros n p o H. in_list H.
  - intros c b H. exfalso. in_list H.
Qed.
Definition freshb (g : ograph) (b : term) : bool :=
  forallb (fun t : otriple => negb (bool_decide (fst (fst t) = b)) && negb (bool_decide (snd t = b))) (elements g).
Lemma freshb_ok g b : freshb g b = true -> fresh g b.
Proof.
  intros H s p o Hin. apply elem_of_elements in Hin. unfold freshb in H. rewrite forallb_forall in H.
  specialize (H _ (proj1 (elem_of_list_In _ _) Hin)). apply andb_true_iff in H as [H1 H2].
  apply negb_true_iff, bool_decide_eq_false in H1. apply negb_true_iff, bool_decide_eq_false in H2. done.
Qed.
Lemma is_attrb g n : bool_decide ((IRI n, p_type, owl_DatatypeProperty) ∈ g) = true -> is_attr g (IRI n).
Proof. intros H. apply bool_decide_eq_true in H. split; [done|eauto]. Qed.
Lemma exA1_wf : wf_onto exA1.
Proof.
  refine (proj1 (C48_yaml exA0 301 201 (Some (LIT 1)) 1 2 (LIT 9) exA0_wf ltac:(discriminate) _ _ _ _ _)).
  - apply freshb_ok. by vm_compute.
  - apply freshb_ok. by vm_compute.
  - apply is_attrb. by vm_compute.
  - intros v [= <-] k. discriminate.
  - discriminate.
Qed.
Lemma exA2_wf : wf_onto exA2.
Proof.
  refine (proj1 (C48_yaml exA1 302 202 None 3 4 (LIT 9) exA1_wf ltac:(discriminate) _ _ _ _ _)).
  - apply freshb_ok. by vm_compute.
  - apply freshb_ok. by vm_compute.
  - apply is_attrb. by vm_compute.
  - discriminate.
  - discriminate.
Qed.
Definition exTruthy (t : term) : bool := negb (bool_decide (t = LIT 0)).
Definition exName (t : term) : N := match t with IRI n => n | BN n => n | LIT n => n end.
Definition exLower (n : N) : N := if 1000 <=? n then n - 1000 else n.

Example C48_example :
  attributes exA2 (triples exA2) exTruthy [IRI 302; IRI 301] =
    Ok [(IRI 202, Info None true None); (IRI 201, Info (Some (LIT 1)) false None)] /\
  attributes_values N exName exLower false
    [(IRI 202, Info None true None); (IRI 201, Info (Some (LIT 1)) false None)] {[202 := 7]} =
    Ok [(IRI 202, Given 7); (IRI 201, Dflt (LIT 1))] /\
  attributes_values N exName exLower false
    [(IRI 202, Info None true None); (IRI 201, Info (Some (LIT 1)) false None)] {[201 := 7]} = Err TypeError /\
  attributes_values N exName exLower false
    [(IRI 202, Info None true None); (IRI 201, Info (Some (LIT 1)) false None)] {[202 := 7; 205 := 1]} = Err TypeError.
Proof. vm_compute. done. Qed.
Example C48_example_unambiguous : unambiguous exName exLower [IRI 202; IRI 201].
Proof.
  intros a b Ha Hb Hne. repeat (apply elem_of_cons in Ha as [Ha|Ha]); [| |by apply elem_of_nil in Ha];
  (repeat (apply elem_of_cons in Hb as [Hb|Hb]); [| |by apply elem_of_nil in Hb]); subst; done.
Qed.
Example C49_example :
  superclasses pick0 exA2 p_subPropertyOf attr_blacklist 20 (IRI 202) = Some [IRI 202; IRI 203] /\
  datatype (triples exA2) [IRI 202; IRI 203] = Ok (Some (IRI 23)) /\
  datatype (triples exA2) [IRI 201; IRI 203] = Err RuntimeError.
Proof. vm_compute. done. Qed.

(** Refuted: a default given in the subclass takes precedence over the superclass's.
    Which one is used depends on the iteration order of the set of superclasses. *)
Definition exD := add_attribute exA1 (IRI 302) (IRI 201) (Some (LIT 2)) (BN 3) (BN 4) (LIT 9).
Theorem C48_nearest_default_refuted :
  has_default exD (IRI 302) (IRI 201) (LIT 2) /\ (IRI 302, p_subClassOf, IRI 301) ∈ exD /\
  attributes exD (triples exD) exTruthy [IRI 302; IRI 301] = Ok [(IRI 201, Info (Some (LIT 2)) false None)] /\
  attributes exD (triples exD) exTruthy [IRI 301; IRI 302] = Ok [(IRI 201, Info (Some (LIT 1)) false None)].
Proof.
  repeat apply conj.
  - exists (BN 4). repeat apply conj; refine (proj1 (bool_decide_eq_true _) _); by vm_compute.
  - refine (proj1 (bool_decide_eq_true _) _). by vm_compute.
  - by vm_compute.
  - by vm_compute.
Qed.

(** Refuted: a default makes an attribute optional.  Here the superclass demands the
    attribute and the subclass gives it a default: the constructor still demands it. *)
Definition exE := add_attribute (add_attribute exA0 (IRI 301) (IRI 201) None (BN 1) (BN 2) (LIT 9))
                    (IRI 302) (IRI 201) (Some (LIT 2)) (BN 3) (BN 4) (LIT 9).
Theorem C48_default_optional_refuted :
  attributes exE (triples exE) exTruthy [IRI 302; IRI 301] = Ok [(IRI 201, Info (Some (LIT 2)) true None)] /\
  attributes_values N exName exLower false [(IRI 201, Info (Some (LIT 2)) true None)] ∅ = Err TypeError.
Proof. vm_compute. done. Qed.

(** Refuted: a declared default is used.  A falsy default (0, "", False) is replaced by
    None if another superclass declares the attribute without one. *)
Definition exF := add_attribute (add_attribute exA0 (IRI 301) (IRI 201) (Some (LIT 0)) (BN 1) (BN 2) (LIT 9))
                    (IRI 302) (IRI 201) None (BN 3) (BN 4) (LIT 9).
Theorem C48_falsy_default_refuted :
  has_default exF (IRI 301) (IRI 201) (LIT 0) /\
  attributes exF (triples exF) exTruthy [IRI 301; IRI 302] = Ok [(IRI 201, Info None true None)].
Proof.
  split.
  - exists (BN 2). repeat apply conj; refine (proj1 (bool_decide_eq_true _) _); by vm_compute.
  - by vm_compute.
Qed.

(** Refuted without [unambiguous]: for attributes whose names differ only in case, the
    keyword is given to whichever comes first. *)
Theorem C48_case_refuted :
  let d1 := [(IRI 1001, Info None false None); (IRI 1, Info None false None)] in
  let d2 := [(IRI 1, Info None false None); (IRI 1001, Info None false None)] in
  attributes_values N exName exLower false d1 {[1 := 7]} = Ok [(IRI 1001, Given 7)] /\
  attributes_values N exName exLower false d2 {[1 := 7]} = Ok [(IRI 1, Given 7)].
Proof. vm_compute. done. Qed.

Print Assumptions C48_attributes.
Print Assumptions C48_single_declaration.
Print Assumptions C48_inherited.
Print Assumptions C48_constructor.
Print Assumptions C48_force.
Print Assumptions C48_by_argname.
Print Assumptions C48_call.
Print Assumptions C48_yaml.
Print Assumptions C49_datatype.
