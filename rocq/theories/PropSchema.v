(** C46: cardinality constraints of a schema file. *)
From Coq Require Import List Arith NArith ZArith Lia Bool String Relations.
From Verif Require Import Prelude Utf8 Text Schema.
Import ListNotations.
Local Open Scope nat_scope.
Local Open Scope list_scope.

(** ** Specification *)
Definition child (w : world) (x y : obj) : Prop := In y (kids w x).
(** the objects of the tree *)
Definition InTree (w : world) (root o : obj) : Prop := clos_refl_trans obj (child w) root o.
(** no infinite path below [root] *)
Definition Finite (w : world) (root : obj) : Prop := Acc (fun y x => child w x y) root.

(** the objects below [x] in the order of the traversal (with repetitions) *)
Inductive Visits (w : world) : obj -> list obj -> Prop :=
| Visits_intro x vss : Forall2 (Visits w) (kids w x) vss ->
    Visits w x (List.concat (map (fun p => fst p :: snd p) (combine (kids w x) vss))).

(** [o] is the last object of its class in the list *)
Definition LastOfClass (w : world) (l : list obj) (o : obj) : Prop :=
  exists l1 l2, l = l1 ++ o :: l2 /\ forall x, In x l2 -> cls w x <> cls w o.

Definition within (n : nat) (mn : Z) (mx : option Z) : Prop :=
  (mn <= Z.of_nat n)%Z /\ forall m, mx = Some m -> (Z.of_nat n <= m)%Z.

(** all constraints that the schema has for the class of [o] hold *)
Definition Satisfies (w : world) (m : schema) (o : obj) : Prop :=
  forall rs rel ns dest c, sget (cls w o) m = Some (Some rs) -> In (rel, ns) rs -> In (dest, c) ns ->
    exists n mn mx, card w o rel dest = Ok n /\ interpret c = Ok (mn, mx) /\ within n mn mx.
(** some constraint for the class of [o] is violated *)
Definition Violates (w : world) (m : schema) (o : obj) : Prop :=
  exists rs rel ns dest c n mn mx, sget (cls w o) m = Some (Some rs) /\ In (rel, ns) rs /\ In (dest, c) ns /\
    card w o rel dest = Ok n /\ interpret c = Ok (mn, mx) /\ ~ within n mn mx.

(** the minimum demanded for [dest] by some constraint *)
Definition Demands (m : schema) (dest : str) (mn : Z) : Prop :=
  exists c rs rel ns k mx, In (c, Some rs) m /\ In (rel, ns) rs /\ In (dest, k) ns /\ interpret k = Ok (mn, mx).
(** every cardinality can be read, and no class is both optional and mandatory *)
Definition SchemaOk (m : schema) : Prop :=
  (forall c rs rel ns dest k, In (c, Some rs) m -> In (rel, ns) rs -> In (dest, k) ns ->
     exists r, interpret k = Ok r) /\
  (forall dest mn, Demands m dest 0 -> Demands m dest mn -> (mn <= 0)%Z).
(** classes that must occur *)
Definition Needed (m : schema) (c : str) : Prop :=
  exists r, In (c, r) m /\
    ((r = None \/ r = Some []) \/ (exists mn, Demands m c mn /\ (0 < mn)%Z) \/ ~ Demands m c 0).

(** ** Dictionaries *)
Lemma sget_sset {A} k (v : A) l k' : sget k' (sset k v l) = if str_eqb k' k then Some v else sget k' l.
Proof.
  induction l as [|[a b] l IH]; cbn; [reflexivity|].
  destruct (str_eqb_spec k a) as [->|Hn]; cbn.
  - destruct (str_eqb k' a); reflexivity.
  - rewrite IH. destruct (str_eqb_spec k' a) as [->|]; [|reflexivity].
    destruct (str_eqb_spec a k); [congruence|reflexivity].
Qed.
Lemma sset_keys {A} k (v : A) l x : In x (map fst (sset k v l)) <-> x = k \/ In x (map fst l).
Proof.
  induction l as [|[a b] l IH]; cbn; [intuition congruence|].
  destruct (str_eqb_spec k a) as [->|Hn]; cbn; [intuition congruence|]. rewrite IH. intuition congruence.
Qed.
Lemma sset_NoDup {A} k (v : A) l : NoDup (map fst l) -> NoDup (map fst (sset k v l)).
Proof.
  induction l as [|[a b] l IH]; cbn; intros H; [repeat constructor; auto|].
  inversion H; subst. destruct (str_eqb_spec k a) as [->|Hn]; cbn; [constructor; auto|].
  constructor; [|auto]. rewrite sset_keys. intros [->|Hi]; [congruence|contradiction].
Qed.
Lemma sget_In {A} k (v : A) l : NoDup (map fst l) -> In (k, v) l <-> sget k l = Some v.
Proof.
  induction l as [|[a b] l IH]; cbn; intros H; [split; [tauto|discriminate]|]. inversion H; subst.
  destruct (str_eqb_spec k a) as [->|Hn].
  - split; [intros [[= ->]|Hi]|intros [= ->]; auto]; [reflexivity|].
    exfalso. apply H2. apply in_map_iff. now exists (a, v).
  - rewrite <- IH by auto. split; [intros [[= -> ->]|Hi]; [congruence|auto]|auto].
Qed.

Lemma forall_m_ok {A} (f : A -> res unit) l : forall_m f l = Ok tt <-> forall x, In x l -> f x = Ok tt.
Proof.
  induction l as [|x l IH]; cbn; [split; [intros _ ? []|auto]|].
  destruct (f x) as [[]|] eqn:E.
  - rewrite IH. split; [intros H y [<-|Hy]; auto|auto].
  - split; [discriminate|]. intros H. specialize (H x (or_introl eq_refl)). congruence.
Qed.
Lemma forall_m_err {A} (f : A -> res unit) l e : forall_m f l = Err e -> exists x, In x l /\ f x = Err e.
Proof.
  induction l as [|x l IH]; cbn; [discriminate|]. destruct (f x) as [u|] eqn:E.
  - intros H. destruct (IH H) as (y & Hy & Hf). eauto.
  - intros [= ->]. eauto.
Qed.

(** ** The traversal *)
Definition put (w : world) (g : list (str * list obj)) (k : obj) := sset (cls w k) [k] g.

Fixpoint group_kids (fuel : nat) (w : world) (ks : list obj) (g : list (str * list obj))
    : res (list (str * list obj)) :=
  match ks with
  | [] => Ok g
  | k :: ks' => match group fuel w k (sset (cls w k) [k] g) with
                | Err e => Err e
                | Ok g' => group_kids fuel w ks' g'
                end
  end.
Lemma group_S fuel w x g : group (S fuel) w x g = group_kids fuel w (kids w x) g.
Proof.
  cbn [group]. generalize (kids w x) as ks. intros ks; revert g; induction ks as [|k ks IH]; intros g; [reflexivity|].
  cbn. destruct (group fuel w k (sset (cls w k) [k] g)); [apply IH|reflexivity].
Qed.

Lemma Visits_size_ind (w : world) (P : obj -> list obj -> Prop) :
  (forall x vss, Forall2 (Visits w) (kids w x) vss -> Forall2 P (kids w x) vss ->
     P x (List.concat (map (fun p => fst p :: snd p) (combine (kids w x) vss)))) ->
  forall x vs, Visits w x vs -> P x vs.
Proof.
  intros H. fix F 3. intros x vs HV. destruct HV as [x vss HF]. apply H; [exact HF|].
  revert HF. generalize (kids w x) as ks. revert vss.
  fix G 3. intros vss ks HF. destruct HF as [|k v ks vss Hk HF]; [constructor|].
  constructor; [apply F, Hk|apply G, HF].
Qed.

Lemma group_visits w x vs : Visits w x vs -> exists N, forall fuel g, N <= fuel ->
  group fuel w x g = Ok (fold_left (put w) vs g).
Proof.
  revert x vs. apply Visits_size_ind. intros x vss _ HF.
  assert (HK : exists N, forall fuel g, N <= fuel ->
    group_kids fuel w (kids w x) g =
    Ok (fold_left (put w) (List.concat (map (fun p => fst p :: snd p) (combine (kids w x) vss))) g)).
  { induction HF as [|k v ks vss (N1 & H1) HF (N2 & H2)]; [exists 0; reflexivity|].
    exists (max N1 N2). intros fuel g Hf. cbn [group_kids combine map List.concat fst snd].
    rewrite H1 by lia. rewrite H2 by lia. rewrite fold_left_app. reflexivity. }
  destruct HK as [N HN]. exists (S N). intros [|fuel] g Hf; [lia|]. rewrite group_S. apply HN. lia.
Qed.

Lemma fold_put w vs g c : sget c (fold_left (put w) vs g) =
  match find (fun o => str_eqb c (cls w o)) (rev vs) with
  | Some o => Some [o]
  | None => sget c g
  end.
Proof.
  revert g; induction vs as [|v vs IH] using rev_ind; intros g; [reflexivity|].
  rewrite fold_left_app, rev_app_distr. cbn. unfold put at 1. rewrite sget_sset.
  destruct (str_eqb c (cls w v)); [reflexivity|]. apply IH.
Qed.
Lemma fold_put_NoDup w vs g : NoDup (map fst g) -> NoDup (map fst (fold_left (put w) vs g)).
Proof. revert g; induction vs as [|v vs IH]; intros g H; cbn; [exact H|]. apply IH. now apply sset_NoDup. Qed.

Lemma find_rev_last w l c o :
  find (fun o => str_eqb c (cls w o)) (rev l) = Some o <-> LastOfClass w l o /\ cls w o = c.
Proof.
  induction l as [|x l IH] using rev_ind.
  - cbn. split; [discriminate|]. intros [(l1 & l2 & E & _) _]. destruct l1; discriminate.
  - rewrite rev_app_distr. cbn. destruct (str_eqb_spec c (cls w x)) as [E|E].
    + split.
      * intros [= <-]. split; [|auto]. exists l, []. split; [reflexivity|intros ? []].
      * intros [(l1 & l2 & El & Hl) Hc]. f_equal.
        destruct (exists_last (l := o :: l2)) as (l2' & y & Ey); [discriminate|].
        rewrite Ey, app_assoc in El. apply app_inj_tail in El as [El <-].
        destruct l2 as [|z l2]; [destruct l2'; [now injection Ey|destruct l2'; discriminate]|].
        exfalso. apply (Hl x); [|congruence].
        destruct l2' as [|z' l2']; [discriminate|]. injection Ey as -> Ey. rewrite Ey. apply in_app_iff. cbn; auto.
    + rewrite IH. split.
      * intros [(l1 & l2 & -> & Hl) Hc]. split; [|exact Hc]. exists l1, (l2 ++ [x]). split; [now rewrite <- app_assoc|].
        intros y Hy. apply in_app_iff in Hy as [Hy|[<-|[]]]; [auto|congruence].
      * intros [(l1 & l2 & El & Hl) Hc]. split; [|exact Hc].
        destruct l2 as [|z l2] using rev_ind.
        -- apply app_inj_tail in El as [-> ->]. congruence.
        -- clear IHl2. change (l1 ++ o :: l2 ++ [z]) with (l1 ++ (o :: l2) ++ [z]) in El.
           rewrite app_assoc in El. apply app_inj_tail in El as [-> ->].
           exists l1, l2. split; [reflexivity|]. intros y Hy. apply Hl. apply in_app_iff; auto.
Qed.

(** ** Traversal order and tree *)
Lemma visits_in_tree w x vs : Visits w x vs -> forall o, In o vs <-> clos_trans obj (child w) x o.
Proof.
  intros HV. pattern x, vs. revert x vs HV. apply Visits_size_ind. intros x vss _ HF o.
  assert (G : In o (List.concat (map (fun p => fst p :: snd p) (combine (kids w x) vss))) <->
     exists k, In k (kids w x) /\ (o = k \/ clos_trans obj (child w) k o)).
  { induction HF as [|k v ks vss Hk HF IH]; cbn.
    - split; [tauto|]. intros (k & [] & _).
    - rewrite in_app_iff, IH, Hk. split.
      + intros [E|[E|(k' & Hk' & E)]]; [exists k; auto|exists k; auto|exists k'; auto].
      + intros (k' & [<-|Hk'] & [E|E]); [auto|auto|right; right; exists k'; auto|right; right; exists k'; auto]. }
  rewrite G. split.
  - intros (k & Hk & [->|Ho]); [now apply t_step|]. eapply t_trans; [apply t_step; exact Hk|exact Ho].
  - intros H. apply clos_trans_t1n in H. inversion H; subst.
    + eauto.
    + exists y. split; [exact H0|right; now apply clos_t1n_trans].
Qed.

Lemma visits_iff w x vs : Visits w x vs -> forall o, In o (x :: vs) <-> InTree w x o.
Proof.
  intros HV o. cbn. rewrite (visits_in_tree w x vs HV). unfold InTree. split.
  - intros [->|H]; [apply rt_refl|]. clear HV. induction H as [x y H|x y z H1 IH1 H2 IH2]; [apply rt_step; exact H|].
    eapply rt_trans; [exact IH1|exact IH2].
  - intros H. apply clos_rt_rt1n in H. inversion H; subst; [auto|]. right.
    clear H. revert x H0 H1 HV. intros x' H0 H1 _. revert x' H0. induction H1; intros x' Hx; [now apply t_step|].
    eapply t_trans; [apply t_step; exact Hx|]. auto.
Qed.

Lemma finite_visits w x : Finite w x -> exists vs, Visits w x vs.
Proof.
  intros H. induction H as [x _ IH].
  assert (HK : exists vss, Forall2 (Visits w) (kids w x) vss).
  { unfold child in IH. induction (kids w x) as [|k ks IHk]; [exists []; constructor|].
    destruct (IH k) as [v Hv]; [cbn; auto|]. destruct IHk as [vss Hvss]; [intros y Hy; apply IH; cbn; auto|].
    exists (v :: vss). constructor; auto. }
  destruct HK as [vss Hvss]. eexists. constructor. exact Hvss.
Qed.

(** A cycle below the root makes the traversal run out of stack, whatever its size. *)
Lemma group_kids_err fuel w ks k e : In k ks -> (forall g, group fuel w k g = Err e) ->
  (forall k' g e', In k' ks -> group fuel w k' g = Err e' -> e' = e) ->
  forall g, group_kids fuel w ks g = Err e.
Proof.
  induction ks as [|k0 ks IH]; [intros []|]. intros Hin Hk Hall g. cbn.
  destruct (group fuel w k0 (sset (cls w k0) [k0] g)) as [g'|e'] eqn:E.
  - destruct Hin as [->|Hin]; [rewrite Hk in E; discriminate|].
    apply IH; auto. intros. eapply Hall; [cbn; eauto|eassumption].
  - f_equal. eapply (Hall k0); [left; reflexivity|exact E].
Qed.
Lemma group_only_recursion fuel w x g e : group fuel w x g = Err e -> e = RecursionError.
Proof.
  revert x g e; induction fuel as [|fuel IH]; intros x g e; [cbn; congruence|]. rewrite group_S.
  generalize (kids w x) as ks. intros ks; revert g; induction ks as [|k ks IHk]; intros g; cbn; [discriminate|].
  destruct (group fuel w k _) eqn:E; [apply IHk|]. intros [= <-]. eapply IH; exact E.
Qed.
Theorem C46_cycle_never_ends : forall fuel w m root x,
  InTree w root x -> clos_trans obj (child w) x x ->
  forall r, validate_tree fuel w m root <> Ok r.
Proof.
  intros fuel w m root x HR HC r. unfold validate_tree.
  assert (HG : forall fuel y, (exists z, child w y z /\ clos_refl_trans obj (child w) z x) -> forall g, group fuel w y g = Err RecursionError).
  { clear r. induction fuel0 as [|fuel0 IH]; intros y (z & Hz & Hzx) g; [reflexivity|]. rewrite group_S.
    assert (Hz' : exists z', child w z z' /\ clos_refl_trans obj (child w) z' x).
    { apply clos_rt_rt1n in Hzx. inversion Hzx; subst.
      - apply clos_trans_t1n in HC. inversion HC; subst.
        + exists x. split; [exact H|apply rt_refl].
        + exists y0. split; [exact H|]. apply clos_t1n_trans in H0. clear -H0.
          induction H0; [now apply rt_step|eapply rt_trans; eassumption].
      - exists y0. split; [exact H|now apply clos_rt1n_rt]. }
    eapply group_kids_err; [exact Hz|apply IH, Hz'|]. intros. eapply group_only_recursion; eassumption. }
  assert (Hroot : exists z, child w root z /\ clos_refl_trans obj (child w) z x).
  { apply clos_rt_rt1n in HR. inversion HR; subst.
    - apply clos_trans_t1n in HC. inversion HC; subst.
      + exists x. split; [exact H|apply rt_refl].
      + exists y. split; [exact H|]. apply clos_t1n_trans in H0. clear -H0.
        induction H0; [now apply rt_step|eapply rt_trans; eassumption].
    - exists y. split; [exact H|now apply clos_rt1n_rt]. }
  destruct (subtrees m) as [[o mn]|]; [|discriminate]. rewrite HG by exact Hroot. discriminate.
Qed.

(** ** Constraints *)

(** The forms of a cardinality: a number, "a-b", "a+", nothing. *)
Theorem C46_cardinality_forms : forall (a b : N) z s,
  interpret NoConstraint = Ok (0%Z, None) /\
  interpret (Constraint (Some (CInt z))) = Ok (z, Some z) /\
  interpret (Constraint (Some (CText (dec a ++ lit "-" ++ dec b)))) = Ok (Z.of_N a, Some (Z.of_N b)) /\
  interpret (Constraint (Some (CText (dec a ++ lit "+")))) = Ok (Z.of_N a, None) /\
  (~ In dash s -> ~ In plus s -> interpret (Constraint (Some (CText s))) = Ok (0%Z, None)).
Proof.
  intros a b z s.
  assert (Hex : forall c t, existsb (N.eqb c) t = true <-> In c t).
  { intros c t. rewrite existsb_exists. split; [intros (x & Hx & E); apply N.eqb_eq in E; now subst|].
    intros H; exists c; split; [auto|apply N.eqb_refl]. }
  assert (Hd : forall n, ~ In dash (dec n)) by (intros n; now apply digit_not).
  assert (Hp : forall n, ~ In plus (dec n)) by (intros n; now apply digit_not).
  repeat split.
  - cbn [interpret]. change (lit "-") with [dash].
    replace (existsb (N.eqb dash) (dec a ++ [dash] ++ dec b)) with true
      by (symmetry; apply Hex, in_app_iff; cbn; auto).
    cbn [app]. rewrite split_on_app by apply Hd. rewrite split_on_nosep by apply Hd.
    now rewrite !int_of_dec.
  - cbn [interpret]. change (lit "+") with [plus].
    replace (existsb (N.eqb dash) (dec a ++ [plus])) with false.
    2: { symmetry. apply not_true_iff_false. rewrite Hex, in_app_iff. intros [H|[H|[]]]; [now apply Hd in H|discriminate]. }
    replace (existsb (N.eqb plus) (dec a ++ [plus])) with true
      by (symmetry; apply Hex, in_app_iff; cbn; auto).
    rewrite split_on_app by apply Hp. now rewrite int_of_dec.
  - intros H1 H2. cbn [interpret].
    replace (existsb (N.eqb dash) s) with false by (symmetry; apply not_true_iff_false; now rewrite Hex).
    replace (existsb (N.eqb plus) s) with false by (symmetry; apply not_true_iff_false; now rewrite Hex).
    reflexivity.
Qed.

Lemma check_card_ok w o rel dest c : check_card w o rel dest c = Ok tt <->
  exists n mn mx, card w o rel dest = Ok n /\ interpret c = Ok (mn, mx) /\ within n mn mx.
Proof.
  unfold check_card, within. destruct (card w o rel dest) as [n|].
  2: { split; [discriminate|]. intros (n & mn & mx & H & _). discriminate. }
  destruct (interpret c) as [[mn mx]|].
  2: { split; [discriminate|]. intros (n' & mn & mx & _ & H & _). discriminate. }
  destruct (Z.ltb_spec (Z.of_nat n) mn); cbn.
  - split; [discriminate|]. intros (n' & mn' & mx' & [= <-] & [= <- <-] & H1 & _). lia.
  - destruct mx as [m|].
    + destruct (Z.ltb_spec m (Z.of_nat n)).
      * split; [discriminate|]. intros (n' & mn' & mx' & [= <-] & [= <- <-] & _ & H1). specialize (H1 m eq_refl). lia.
      * split; [intros _|reflexivity]. exists n, mn, (Some m). repeat split; auto. intros m' [= <-]. lia.
    + split; [intros _|reflexivity]. exists n, mn, None. repeat split; auto. discriminate.
Qed.
Lemma check_card_violated w o rel dest c : check_card w o rel dest c = Err cardinality_error ->
  (forall e, card w o rel dest = Err e -> e <> cardinality_error) ->
  (forall e, interpret c = Err e -> e <> cardinality_error) ->
  exists n mn mx, card w o rel dest = Ok n /\ interpret c = Ok (mn, mx) /\ ~ within n mn mx.
Proof.
  intros H H1 H2. pose proof (check_card_ok w o rel dest c) as HI. unfold check_card in *.
  destruct (card w o rel dest) as [n|e]; [|exfalso; eapply H1; [reflexivity|congruence]].
  destruct (interpret c) as [[mn mx]|e]; [|exfalso; eapply H2; [reflexivity|congruence]].
  exists n, mn, mx. repeat split; auto. intros HW.
  rewrite H in HI. destruct HI as [_ HI]. discriminate HI. eauto 10.
Qed.

Lemma check_object_ok w m o rs : sget (cls w o) m = Some (Some rs) ->
  check_object w rs o = Ok tt <-> Satisfies w m o.
Proof.
  intros Hm. unfold check_object, Satisfies. rewrite forall_m_ok. split.
  - intros H rs' rel ns dest c E Hr Hn. rewrite Hm in E. injection E as <-.
    specialize (H _ Hr). rewrite forall_m_ok in H. specialize (H _ Hn). cbn in H. now apply check_card_ok.
  - intros H [rel ns] Hr. rewrite forall_m_ok. intros [dest c] Hn. apply check_card_ok. eapply H; eauto.
Qed.

Lemma mapM_ok_in {A B} (f : A -> res B) l r : mapM f l = Ok r ->
  forall y, In y r <-> exists x, In x l /\ f x = Ok y.
Proof.
  revert r; induction l as [|x l IH]; cbn; intros r H y.
  - injection H as <-. split; [intros [] | intros (? & [] & _)].
  - destruct (f x) as [b|] eqn:E; [|discriminate]. destruct (mapM f l) as [bs|]; [|discriminate].
    injection H as <-. cbn. rewrite (IH bs eq_refl y). split.
    + intros [<-|(x' & Hx & Hf)]; eauto.
    + intros (x' & [<-|Hx] & Hf); [left; congruence | right; eauto].
Qed.
Lemma mapM_all_ok {A B} (f : A -> res B) l : (forall x, In x l -> exists y, f x = Ok y) -> exists r, mapM f l = Ok r.
Proof.
  induction l as [|x l IH]; intros H; cbn; [eauto|]. destruct (H x) as [y Hy]; [cbn; auto|]. rewrite Hy.
  destruct IH as [r Hr]; [intros; apply H; cbn; auto|]. rewrite Hr. eauto.
Qed.
Lemma mapM_ok_each {A B} (f : A -> res B) l r x : mapM f l = Ok r -> In x l -> exists y, f x = Ok y.
Proof.
  revert r; induction l as [|a l IH]; cbn; intros r H Hx; [destruct Hx|].
  destruct (f a) as [b|] eqn:E; [|discriminate]. destruct (mapM f l) as [bs|]; [|discriminate].
  destruct Hx as [<-|Hx]; [eauto|]. eapply IH; eauto.
Qed.

Lemma all_constraints_in m dest k : In (dest, k) (all_constraints m) <->
  exists c rs rel ns, In (c, Some rs) m /\ In (rel, ns) rs /\ In (dest, k) ns.
Proof.
  unfold all_constraints. rewrite in_flat_map. split.
  - intros ([c [rs|]] & He & H); [|destruct H]. cbn in H. apply in_flat_map in H as ([rel ns] & Hr & Hn). eauto 10.
  - intros (c & rs & rel & ns & H1 & H2 & H3). exists (c, Some rs). split; [exact H1|]. cbn.
    apply in_flat_map. exists (rel, ns). auto.
Qed.

Lemma subtrees_ok m : (exists om, subtrees m = Ok om) <-> SchemaOk m.
Proof.
  unfold subtrees, SchemaOk.
  set (f := fun nc : str * constraint => rmap (fun r => (fst nc, fst r)) (interpret (snd nc))).
  destruct (mapM f (all_constraints m)) as [l|e] eqn:E.
  - assert (HD : forall dest mn, In (dest, mn) l <-> Demands m dest mn).
    { intros dest mn. rewrite (mapM_ok_in _ _ _ E). unfold Demands, f. split.
      - intros ([d k] & Hk & Hf). cbn in Hf. destruct (interpret k) as [[a b]|] eqn:Ek; [|discriminate].
        injection Hf as -> ->. apply all_constraints_in in Hk as (c & rs & rel & ns & H1 & H2 & H3). eauto 12.
      - intros (c & rs & rel & ns & k & mx & H1 & H2 & H3 & H4). exists (dest, k). split.
        + apply all_constraints_in. eauto 10.
        + cbn. now rewrite H4. }
    assert (HA : forall c rs rel ns dest k, In (c, Some rs) m -> In (rel, ns) rs -> In (dest, k) ns ->
        exists r, interpret k = Ok r).
    { intros c rs rel ns dest k H1 H2 H3.
      destruct (mapM_ok_each f _ _ (dest, k) E) as [y Hy]; [apply all_constraints_in; eauto 10|].
      unfold f in Hy. cbn in Hy. destruct (interpret k); [eauto|discriminate]. }
    destruct (existsb _ _) eqn:EX.
    + split; [intros [om Hom]; discriminate|]. intros [_ HB]. exfalso.
      apply existsb_exists in EX as (x & Hx & Ey). apply existsb_exists in Ey as (y & Hy & Exy).
      apply str_eqb_eq in Exy as ->. apply in_map_iff in Hx as ([d1 m1] & Ed1 & Hx). apply filter_In in Hx as [Hx Hz].
      apply in_map_iff in Hy as ([d2 m2] & Ed2 & Hy). apply filter_In in Hy as [Hy Hp].
      cbn in *. subst. apply Z.eqb_eq in Hz. subst m1. apply Z.ltb_lt in Hp.
      apply HD in Hx, Hy. specialize (HB _ _ Hx Hy). lia.
    + split; [intros _|eauto]. split; [exact HA|]. intros dest mn H0 Hmn.
      destruct (Z.le_gt_cases mn 0) as [|Hgt]; [assumption|]. exfalso.
      apply not_true_iff_false in EX. apply EX. apply existsb_exists. exists dest. split.
      * apply in_map_iff. exists (dest, 0%Z). split; [reflexivity|]. apply filter_In. split; [now apply HD|reflexivity].
      * apply existsb_exists. exists dest. split; [|apply str_eqb_refl]. apply in_map_iff. exists (dest, mn).
        split; [reflexivity|]. apply filter_In. split; [now apply HD|]. cbn. now apply Z.ltb_lt.
  - split; [intros [om Hom]; discriminate|]. intros [HA _]. exfalso.
    destruct (mapM_all_ok f (all_constraints m)) as [r Hr]; [|congruence].
    intros [dest k] Hk. apply all_constraints_in in Hk as (c & rs & rel & ns & H1 & H2 & H3).
    destruct (HA _ _ _ _ _ _ H1 H2 H3) as [[a b] Hab]. unfold f. cbn. rewrite Hab. cbn. eauto.
Qed.

Lemma subtrees_spec m om : subtrees m = Ok om ->
  (forall c, In c (fst om) <-> Demands m c 0) /\
  (forall c, In c (snd om) <-> exists mn, Demands m c mn /\ (0 < mn)%Z).
Proof.
  unfold subtrees.
  set (f := fun nc : str * constraint => rmap (fun r => (fst nc, fst r)) (interpret (snd nc))).
  destruct (mapM f (all_constraints m)) as [l|e] eqn:E; [|discriminate].
  assert (HD : forall dest mn, In (dest, mn) l <-> Demands m dest mn).
  { intros dest mn. rewrite (mapM_ok_in _ _ _ E). unfold Demands, f. split.
    - intros ([d k] & Hk & Hf). cbn in Hf. destruct (interpret k) as [[a b]|] eqn:Ek; [|discriminate].
      injection Hf as -> ->. apply all_constraints_in in Hk as (c & rs & rel & ns & H1 & H2 & H3). eauto 12.
    - intros (c & rs & rel & ns & k & mx & H1 & H2 & H3 & H4). exists (dest, k). split.
      + apply all_constraints_in. eauto 10.
      + cbn. now rewrite H4. }
  destruct (existsb _ _); [discriminate|]. intros [= <-]. cbn. split; intros c; rewrite in_map_iff.
  - split.
    + intros ([d mn] & <- & H). apply filter_In in H as [H Hz]. cbn in *. apply Z.eqb_eq in Hz. subst. now apply HD.
    + intros H. exists (c, 0%Z). split; [reflexivity|]. apply filter_In. split; [now apply HD|reflexivity].
  - split.
    + intros ([d mn] & <- & H). apply filter_In in H as [H Hz]. cbn in *. apply Z.ltb_lt in Hz. exists mn.
      split; [now apply HD|auto].
    + intros (mn & H & Hp). exists (c, mn). split; [reflexivity|]. apply filter_In. split; [now apply HD|].
      cbn. now apply Z.ltb_lt.
Qed.

Lemma existsb_str c l : existsb (str_eqb c) l = true <-> In c l.
Proof.
  rewrite existsb_exists. split; [intros (x & Hx & E); apply str_eqb_eq in E; now subst|].
  intros H; exists c; split; [auto|apply str_eqb_refl].
Qed.

Lemma needed_bool m om c r : subtrees m = Ok om -> In (c, r) m ->
  falsy r || existsb (str_eqb c) (snd om) || negb (existsb (str_eqb c) (fst om)) = true ->
  Needed m c.
Proof.
  intros Hs Hin H. destruct (subtrees_spec m om Hs) as [H0 H1]. exists r. split; [exact Hin|].
  apply orb_true_iff in H as [H|H]; [apply orb_true_iff in H as [H|H]|].
  - left. destruct r as [[|]|]; try discriminate; auto.
  - right. left. apply H1. now apply existsb_str.
  - right. right. rewrite <- H0. apply negb_true_iff, not_true_iff_false in H. now rewrite existsb_str in H.
Qed.
Lemma needed_bool' m om c : subtrees m = Ok om -> Needed m c ->
  exists r, In (c, r) m /\
  falsy r || existsb (str_eqb c) (snd om) || negb (existsb (str_eqb c) (fst om)) = true.
Proof.
  intros Hs (r & Hin & H). destruct (subtrees_spec m om Hs) as [H0 H1]. exists r. split; [exact Hin|].
  destruct H as [[->| ->]|[H|H]]; [reflexivity|reflexivity| |].
  - apply H1, existsb_str in H. rewrite H. now rewrite orb_true_r.
  - rewrite <- H0, <- existsb_str in H. apply not_true_iff_false in H. rewrite H. apply orb_true_r.
Qed.

(** ** C46: what is checked *)

(** For every finite tree, the validation passes exactly when the schema is
    consistent, every needed class occurs in the tree, and for every class the
    object visited last satisfies its constraints. *)
Theorem C46_exact : forall w m root vs,
  NoDup (map fst m) -> Visits w root vs ->
  exists N, forall fuel, N <= fuel ->
    (validate_tree fuel w m root = Ok tt <->
      SchemaOk m /\
      (forall c, Needed m c -> exists o, InTree w root o /\ cls w o = c) /\
      (forall o, LastOfClass w (root :: vs) o -> Satisfies w m o)).
Proof.
  intros w m root vs Hm HV. destruct (group_visits w root vs HV) as [N HN]. exists N. intros fuel Hf.
  unfold validate_tree. pose proof (subtrees_ok m) as HS.
  destruct (subtrees m) as [[opt man]|e] eqn:Es.
  2: { split; [discriminate|]. intros [H _]. apply HS in H as [om H]. discriminate. }
  assert (HSO : SchemaOk m) by (apply HS; eauto). rewrite HN by exact Hf.
  set (g0 := [(cls w root, [root])]).
  set (groups := fold_left (put w) vs g0).
  assert (HG : forall c, sget c groups = match find (fun o => str_eqb c (cls w o)) (rev (root :: vs)) with
                                         | Some o => Some [o] | None => None end).
  { intros c. unfold groups. rewrite fold_put. cbn [rev].
    assert (HF : forall l : list obj, find (fun o => str_eqb c (cls w o)) (l ++ [root]) =
       match find (fun o => str_eqb c (cls w o)) l with Some o => Some o | None => if str_eqb c (cls w root) then Some root else None end).
    { induction l as [|y l IH]; cbn; [reflexivity|]. destruct (str_eqb c (cls w y)); [reflexivity|exact IH]. }
    rewrite HF. destruct (find _ (rev vs)); [reflexivity|]. cbn. destruct (str_eqb c (cls w root)); reflexivity. }
  assert (HND : NoDup (map fst groups)).
  { apply fold_put_NoDup. repeat constructor. auto. }
  assert (HP : forall c, sget c groups <> None <-> exists o, InTree w root o /\ cls w o = c).
  { intros c. rewrite HG. split.
    - destruct (find _ (rev (root :: vs))) as [o|] eqn:E; [|congruence]. intros _. exists o.
      apply find_some in E as [E1 E2]. apply str_eqb_eq in E2. apply in_rev in E1.
      split; [now apply (visits_iff w root vs HV)|auto].
    - intros (o & Ho & Hc). apply (visits_iff w root vs HV) in Ho. apply in_rev in Ho.
      destruct (find _ (rev (root :: vs))) as [o'|] eqn:E; [discriminate|].
      pose proof (find_none _ _ E o Ho) as H. cbn in H. apply str_eqb_neq in H. congruence. }
  assert (HA : forall_m (fun e : str * option rels =>
                  if falsy (snd e) || existsb (str_eqb (fst e)) man
                     || negb (existsb (str_eqb (fst e)) opt)
                  then match sget (fst e) groups with
                       | Some _ => Ok tt
                       | None => Err consistency_error
                       end
                  else Ok tt) m = Ok tt <-> forall c, Needed m c -> exists o, InTree w root o /\ cls w o = c).
  { rewrite forall_m_ok. split.
    - intros H c Hc. apply HP. destruct (needed_bool' m _ c Es Hc) as (r & Hin & Hb). cbn [fst snd] in Hb.
      specialize (H _ Hin). cbn [fst snd] in H. rewrite Hb in H. destruct (sget c groups); [discriminate|discriminate H].
    - intros H [c r] Hin. cbn [fst snd].
      destruct (falsy r || existsb (str_eqb c) man || negb (existsb (str_eqb c) opt)) eqn:Hb; [|reflexivity].
      assert (Hn : Needed m c) by (eapply (needed_bool m (opt, man)); eauto).
      apply H, HP in Hn. destruct (sget c groups); [reflexivity|congruence]. }
  assert (HB : forall_m (fun g : str * list obj =>
                match sget (fst g) m with
                | None | Some None => Ok tt
                | Some (Some rs) => forall_m (check_object w rs) (snd g)
                end) groups = Ok tt <-> forall o, LastOfClass w (root :: vs) o -> Satisfies w m o).
  { rewrite forall_m_ok. split.
    - intros H o Ho rs rel ns dest c Hrs.
      assert (Hin : In (cls w o, [o]) groups).
      { apply sget_In; [exact HND|]. rewrite HG. replace (find _ _) with (Some o); [reflexivity|].
        symmetry. now apply find_rev_last. }
      specialize (H _ Hin). cbn [fst snd] in H. rewrite Hrs in H. cbn in H.
      destruct (check_object w rs o) as [[]|] eqn:E; [|discriminate].
      apply (check_object_ok w m o rs Hrs) in E. now apply E.
    - intros H [c l] Hin. cbn [fst snd]. apply sget_In in Hin; [|exact HND]. rewrite HG in Hin.
      destruct (find _ (rev (root :: vs))) as [o|] eqn:E; [|discriminate]. injection Hin as <-.
      apply find_rev_last in E as [E1 <-]. specialize (H o E1).
      destruct (sget (cls w o) m) as [[rs|]|] eqn:Hrs; try reflexivity. cbn.
      apply (check_object_ok w m o rs Hrs) in H. now rewrite H. }
  destruct (forall_m _ m) as [[]|e] eqn:EA.
  - rewrite HB. split; [intros H; exact (conj HSO (conj (proj1 HA eq_refl) H))|intros (_ & _ & H); exact H].
  - split; [discriminate|]. intros (_ & H & _). apply HA in H. discriminate.
Qed.

(** If no class occurs twice in the tree, every object is checked. *)
Theorem C46_enforced_if_classes_unique_partial : forall w m root,
  NoDup (map fst m) -> Finite w root ->
  (forall o o', InTree w root o -> InTree w root o' -> cls w o = cls w o' -> o = o') ->
  exists N, forall fuel, N <= fuel ->
    (validate_tree fuel w m root = Ok tt <->
      SchemaOk m /\
      (forall c, Needed m c -> exists o, InTree w root o /\ cls w o = c) /\
      (forall o, InTree w root o -> Satisfies w m o)).
Proof.
  intros w m root Hm HF HU. destruct (finite_visits w root HF) as [vs HV].
  destruct (C46_exact w m root vs Hm HV) as [N HN]. exists N. intros fuel Hf. rewrite (HN fuel Hf).
  assert (HI := visits_iff w root vs HV).
  assert (HL : forall o, In o (root :: vs) -> exists o', LastOfClass w (root :: vs) o' /\ cls w o' = cls w o /\ In o' (root :: vs)).
  { intros o Ho. destruct (find (fun x => str_eqb (cls w o) (cls w x)) (rev (root :: vs))) as [o'|] eqn:E.
    - exists o'. apply find_some in E as E'. destruct E' as [E' _]. apply in_rev in E'.
      apply find_rev_last in E as [E1 E2]. auto.
    - apply in_rev in Ho. pose proof (find_none _ _ E o Ho) as H. cbn in H. now rewrite str_eqb_refl in H. }
  split; intros (H1 & H2 & H3); repeat split; try apply H1; auto.
  - intros o Ho. apply HI in Ho. destruct (HL o Ho) as (o' & Ho' & Hc & Hin).
    assert (o' = o) by (apply HU; auto; apply HI; auto). subst. auto.
  - intros o (l1 & l2 & E & _). apply H3, HI. rewrite E. apply in_app_iff. cbn; auto.
Qed.

(** No false alarm: a CardinalityError means that an object of the tree violates
    a constraint of its class. *)
Theorem C46_no_false_alarm : forall w m root vs fuel,
  NoDup (map fst m) -> Visits w root vs ->
  (forall o rel dest e, card w o rel dest = Err e -> e <> cardinality_error) ->
  validate_tree fuel w m root = Err cardinality_error ->
  exists o, InTree w root o /\ Violates w m o.
Proof.
  intros w m root vs fuel Hm HV Hcard H. unfold validate_tree in H.
  assert (Hint : forall c e, interpret c = Err e -> e <> cardinality_error).
  { intros [|[[z|s]|]] e; cbn; try discriminate.
    - assert (HI : forall t e, int_of_str t = Err e -> e <> cardinality_error).
      { intros t e'. unfold int_of_str.
        repeat match goal with |- context [match ?x with _ => _ end] => destruct x end; congruence || (intros [= <-]; discriminate). }
      destruct (existsb (N.eqb dash) s).
      + destruct (split_on dash s) as [|a [|b ?]]; try (intros [= <-]; discriminate).
        destruct (int_of_str a) eqn:Ea; [|intros [= <-]; eapply HI; eassumption].
        destruct (int_of_str b) eqn:Eb; [discriminate|intros [= <-]; eapply HI; eassumption].
      + destruct (existsb (N.eqb plus) s); [|discriminate].
        destruct (split_on plus s) as [|a ?]; try (intros [= <-]; discriminate).
        destruct (int_of_str a) eqn:Ea; [discriminate|intros [= <-]; eapply HI; eassumption].
    - intros [= <-]; discriminate. }
  destruct (subtrees m) as [[opt man]|e] eqn:Es.
  2: { exfalso. injection H as ->. unfold subtrees in Es.
       destruct (mapM _ (all_constraints m)) as [l|e] eqn:E; [destruct (existsb _ _); discriminate|].
       injection Es as ->. revert E. induction (all_constraints m) as [|[d k] l IH]; cbn; [discriminate|].
       destruct (interpret k) as [r|e] eqn:Ek; cbn.
       - destruct (mapM _ l); [discriminate|]. intros [= ->]. auto.
       - intros [= ->]. now apply (Hint k _ Ek). }
  destruct (group fuel w root [(cls w root, [root])]) as [groups|e] eqn:Eg.
  2: { injection H as ->. apply group_only_recursion in Eg. discriminate. }
  destruct (forall_m _ m) as [u|e] eqn:EA.
  2: { exfalso. injection H as ->. apply forall_m_err in EA as (x & _ & Hx).
       destruct (_ || _); [|discriminate]. destruct (sget (fst x) groups); discriminate. }
  apply forall_m_err in H as ([c l] & Hin & Hx). cbn [fst snd] in Hx.
  destruct (sget c m) as [[rs|]|] eqn:Hrs; try discriminate.
  apply forall_m_err in Hx as (o & Ho & Hx).
  (* the groups contain objects of the tree under their class *)
  assert (HG : forall N fuel x g g', group fuel w x g = Ok g' -> fuel <= N ->
      InTree w root x -> (forall c l o, In (c, l) g -> In o l -> InTree w root o /\ cls w o = c) ->
      forall c l o, In (c, l) g' -> In o l -> InTree w root o /\ cls w o = c).
  { clear. induction N as [|N IH]; intros fuel x g g' Hg Hle Hx HI.
    - destruct fuel; [discriminate|lia].
    - destruct fuel as [|fuel]; [discriminate|]. rewrite group_S in Hg.
      assert (HK : forall ks g g', incl ks (kids w x) -> group_kids fuel w ks g = Ok g' ->
         (forall c l o, In (c, l) g -> In o l -> InTree w root o /\ cls w o = c) ->
         forall c l o, In (c, l) g' -> In o l -> InTree w root o /\ cls w o = c).
      { induction ks as [|k ks IHk]; intros g1 g2 Hincl H Hg1; cbn in H; [injection H as <-; exact Hg1|].
        destruct (group fuel w k (sset (cls w k) [k] g1)) as [g3|] eqn:E; [|discriminate].
        assert (Hk : InTree w root k).
        { eapply rt_trans; [exact Hx|]. apply rt_step. apply Hincl. cbn; auto. }
        eapply IHk; [intros y Hy; apply Hincl; cbn; auto|exact H|].
        eapply IH; [exact E|lia|exact Hk|]. intros c l o Hin Hol.
        assert (Hput : In (c, l) g1 \/ (c = cls w k /\ l = [k])).
        { clear -Hin. induction g1 as [|[a b] g1 IHg]; cbn in Hin.
          - destruct Hin as [[= -> ->]|[]]. auto.
          - destruct (str_eqb_spec (cls w k) a) as [<-|Hn]; cbn in *.
            + destruct Hin as [[= -> ->]|Hin]; auto.
            + destruct Hin as [[= -> ->]|Hin]; [auto|]. destruct (IHg Hin); auto. }
        destruct Hput as [Hput|[-> ->]]; [eauto|]. destruct Hol as [<-|[]]. auto. }
      eapply HK; [apply incl_refl|exact Hg|exact HI]. }
  assert (Hoc : InTree w root o /\ cls w o = c).
  { eapply (HG fuel fuel root _ _ Eg); [lia|apply rt_refl| |exact Hin|exact Ho].
    intros c' l' o' [[= <- <-]|[]] [<-|[]]. split; [apply rt_refl|reflexivity]. }
  destruct Hoc as [Ht Hc]. exists o. split; [exact Ht|].
  unfold check_object in Hx. apply forall_m_err in Hx as ([rel ns] & Hr & Hx). cbn [fst snd] in Hx.
  apply forall_m_err in Hx as ([dest k] & Hn & Hx). cbn [fst snd] in Hx.
  apply check_card_violated in Hx as (n & mn & mx & E1 & E2 & E3).
  - exists rs, rel, ns, dest, k, n, mn, mx. rewrite Hc. auto 10.
  - intros e He. eapply Hcard; exact He.
  - intros e He. eapply Hint; exact He.
Qed.

(** ** The full claim is false *)

(** A city with two citizens; each citizen must have one child, the first has none. *)
Definition exW : world := World
  (fun o => if (o =? 0)%N then lit "city.City" else lit "city.Citizen")
  (fun o => if (o =? 0)%N then [1%N; 2%N] else [])
  (fun o _ _ => Ok (if (o =? 2)%N then 1 else 0)).
Definition exM : schema :=
  [(lit "city.City", None);
   (lit "city.Citizen", Some [(lit "city.hasChild", [(lit "city.Person", Constraint (Some (CInt 1)))])])].
Lemma exFinite : Finite exW 0%N.
Proof.
  assert (H : forall y, y <> 0%N -> Finite exW y).
  { intros y Hy. constructor. intros z Hz. unfold child in Hz. cbn in Hz.
    destruct (N.eqb_spec y 0); [congruence|destruct Hz]. }
  constructor. intros z Hz. apply H. unfold child in Hz. cbn in Hz. destruct Hz as [<-|[<-|[]]]; discriminate.
Qed.
Theorem C46_every_object_refuted :
  ~ (forall w m root fuel, NoDup (map fst m) -> Finite w root ->
       validate_tree fuel w m root = Ok tt -> forall o, InTree w root o -> ~ Violates w m o).
Proof.
  intros H. apply (H exW exM 0%N 10) with (o := 1%N).
  - repeat constructor; cbn; intuition discriminate.
  - apply exFinite.
  - vm_compute. reflexivity.
  - apply rt_step. cbn. auto.
  - exists [(lit "city.hasChild", [(lit "city.Person", Constraint (Some (CInt 1)))])],
      (lit "city.hasChild"), [(lit "city.Person", Constraint (Some (CInt 1)))], (lit "city.Person"),
      (Constraint (Some (CInt 1))), 0, 1%Z, (Some 1%Z).
    repeat split; try reflexivity; cbn; auto. intros [Hw _]. lia.
Qed.
(** the opposite order is rejected: the verdict depends on the traversal order *)
Definition exW2 : world := World (cls exW) (fun o => if (o =? 0)%N then [2%N; 1%N] else []) (card exW).
Example C46_order_matters :
  validate_tree 10 exW exM 0%N = Ok tt /\ validate_tree 10 exW2 exM 0%N = Err cardinality_error.
Proof. split; vm_compute; reflexivity. Qed.

(** Non-vacuity of the positive theorem: one citizen only. *)
Definition exW3 : world := World (cls exW) (fun o => if (o =? 0)%N then [2%N] else []) (card exW).
Example C46_example :
  validate_tree 10 exW3 exM 0%N = Ok tt /\
  (forall o o', InTree exW3 0%N o -> InTree exW3 0%N o' -> cls exW3 o = cls exW3 o' -> o = o').
Proof.
  split; [vm_compute; reflexivity|].
  assert (H : forall o, InTree exW3 0%N o -> o = 0%N \/ o = 2%N).
  { intros o Ho. apply clos_rt_rtn1 in Ho. induction Ho as [|y z Hyz _ IH]; [auto|].
    unfold child in Hyz. destruct IH as [->| ->]; cbn in Hyz; intuition. }
  intros o o' Ho Ho'. destruct (H o Ho) as [->| ->], (H o' Ho') as [->| ->]; cbn; congruence || (intros E; discriminate E).
Qed.

Print Assumptions C46_exact.
Print Assumptions C46_enforced_if_classes_unique_partial.
Print Assumptions C46_no_false_alarm.
Print Assumptions C46_every_object_refuted.
Print Assumptions C46_cycle_never_ends.
Print Assumptions C46_cardinality_forms.
