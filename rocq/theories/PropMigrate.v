(** C37: migration of a database of the old schema. *)
From stdpp Require Import base list.
From Verif Require Import Prelude Sql PropSql Migrate.
Local Open Scope N_scope.

Section Spec.
  Context {E D V : Type} (rdf_type wrapper : E) (xsd_string : D) (inverse : E -> E).

  (** ** Specification: the triples an old database stands for *)
  Inductive old_triple (d : old E D V) : striple E D V -> Prop :=
  | ot_class u c : (u, Some (Some c)) ∈ o_master d -> old_triple d (u, rdf_type, NEnt c)
  | ot_root u : (u, None) ∈ o_master d -> old_triple d (u, rdf_type, NEnt wrapper)
  | ot_rel u u' r : (u, u', Some r) ∈ o_rels d -> old_triple d (u, r, NCuds u')
  | ot_to_root u r : (u, 0, Some r) ∈ o_rels d -> old_triple d (0, inverse r, NCuds u)
  | ot_attr attrs rows row u i a dt v : (Some attrs, rows) ∈ o_data d -> (row, u) ∈ rows ->
      attrs !! i = Some (a, dt) -> row !! i = Some v ->
      old_triple d (u, a, NLit v (Some (default xsd_string dt))).

  (** All names are known and the datatypes of the values have tables. *)
  Definition known (d : old E D V) : Prop :=
    (forall u c, (u, Some c) ∈ o_master d -> c <> None) /\
    (forall u u' r, (u, u', r) ∈ o_rels d -> r <> None) /\
    (forall attrs rows, (attrs, rows) ∈ o_data d -> attrs <> None).
  (** The entities that occur. *)
  Inductive occurs (d : old E D V) : E -> Prop :=
  | oc_class u c : (u, Some (Some c)) ∈ o_master d -> occurs d c
  | oc_root u : (u, None) ∈ o_master d -> occurs d wrapper
  | oc_rel u u' r : (u, u', Some r) ∈ o_rels d -> occurs d r
  | oc_to_root u r : (u, 0, Some r) ∈ o_rels d -> occurs d (inverse r)
  | oc_attr attrs rows a : (Some attrs, rows) ∈ o_data d -> a ∈ attrs -> occurs d (fst a).
End Spec.

Section Proofs.
  Context {E NS NM D V W : Type}.
  Context `{EqDecision E} `{EqDecision NS} `{EqDecision NM} `{EqDecision D} `{EqDecision V} `{EqDecision W}.
  Notation striple := (striple E D V).
  Notation sdb := (sdb NS NM D W).
  Notation sess := (sess NS NM D W).
  Notation mig := (mig E NS NM D W).
  Notation old := (old E D V).
  Context (rdf_type : E) (xsd_string : D) (wrapper : E) (inverse : E -> E).
  Context (split : E -> NS * NM) (join : NS -> NM -> E) (kind : E -> option (pkind D)).
  Context (ens : E -> NS) (ename : E -> NM).
  Context (wr : D -> V -> option W) (rd : D -> W -> V).
  Context (fresh : list N -> N) (order : list (table D) -> list (table D)).
  Context (Hsplit : forall e, join (fst (split e)) (snd (split e)) = e).
  Context (Hfresh : forall l, fresh l ∉ l) (Horder : forall l t, t ∈ order l <-> t ∈ l).

  Notation wf := (wf split wr rd).
  Notation stored := (stored rdf_type split rd).
  Notation ent_is := (ent_is split).
  Notation mig_cuds := (mig_cuds (E := E) (NS := NS) (NM := NM) (D := D) (W := W) fresh).
  Notation mig_ns := (mig_ns (E := E) (NS := NS) (NM := NM) (D := D) (W := W) fresh).
  Notation mig_ent := (mig_ent (E := E) (NS := NS) (NM := NM) (D := D) (W := W) ename fresh).
  Notation MM := (MM (E := E) (NS := NS) (NM := NM) (D := D) (W := W)).

  Record mwf (m : mig) : Prop := {
    mw_db : wf (m_db m);
    mw_cuds : m_cuds m = t_cuds (m_db m);
    mw_ns : m_ns m = t_ns (m_db m);
    mw_ents : forall i e, (i, e) ∈ m_ents m <-> ent_is (m_db m) i e }.
  Definition minv (T : D -> Prop) (S : striple -> Prop) (m : mig) : Prop :=
    mwf m /\ (forall t, stored (m_db m) t <-> S t) /\ (forall d, T d <-> d ∈ (t_data (m_db m)).*1).
  Definition mstep (m m' : mig) : Prop := mwf m' /\ ext (m_db m) (m_db m').

  Lemma mstep_trans a b c : mstep a b -> mstep b c -> mstep a c.
  Proof. intros [_ H1] [H2 H3]. split; [done|by eapply ext_trans]. Qed.
  Lemma mstep_inv T S m m' : minv T S m -> mstep m m' -> minv T S m'.
  Proof.
    intros (Hw & HS & HT) [Hw' He]. split; [done|]. split.
    - intros t. rewrite <- HS. symmetry.
      eapply ext_stored; [exact Hsplit|exact (mw_db m Hw)|exact (mw_db m' Hw')|done].
    - intros d. by rewrite HT, (ext_tables _ _ He).
  Qed.

  Lemma mig_cuds_spec m u : mwf m -> exists i m', mig_cuds u m = (Ok i, m') /\ mstep m m' /\ (i, u) ∈ t_cuds (m_db m').
  Proof.
    intros Hm. unfold Migrate.mig_cuds. rewrite (mw_cuds m Hm).
    destruct (get_cuds_idx_spec rdf_type split kind wr rd fresh Hfresh (Sess (m_db m) (t_ns (m_db m))) u) as (i & s' & H1 & [[H2 _] H3] & H4).
    { split; [apply Hm|done]. }
    unfold get_cuds_idx in H1. simpl in H1. destruct (find_idx (t_cuds (m_db m)) u) as [j|] eqn:Ef.
    - injection H1 as -> <-. exists i, m. split; [done|]. split; [split; [done|]|done]. exact H3.
    - injection H1 as <- <-. eexists _, _. split; [reflexivity|]. split; [|exact H4]. split; [|exact H3].
      split; simpl; [exact H2|done|apply Hm|]. intros i e. rewrite (mw_ents m Hm). done.
  Qed.
  Lemma mig_ns_spec m n : mwf m -> exists i m', mig_ns n m = (Ok i, m') /\ mstep m m' /\ (i, n) ∈ t_ns (m_db m').
  Proof.
    intros Hm. unfold Migrate.mig_ns. rewrite (mw_ns m Hm). destruct (find_idx (t_ns (m_db m)) n) as [j|] eqn:Ef.
    - exists j, m. split; [done|]. split; [split; [done|apply ext_refl]|]. by apply find_idx_some.
    - eexists _, _. split; [reflexivity|]. set (i := fresh (map fst (t_ns (m_db m)))).
      assert (forall j, (j, n) ∉ t_ns (m_db m)) as Hn by (intros j; by apply find_idx_none).
      split; [|simpl; apply elem_of_app; right; left]. split.
      + destruct Hm as [Hw Hc Hns He]. destruct Hw as [A1 A2 A3 A4 A5 A6 A7 A8]. split; simpl; [|done|done|].
        * split; simpl; try done.
          -- by apply functional_app.
          -- intros i0 x Hx. destruct (A5 i0 x Hx) as [e (k & H1 & H2)]. exists e, k. split; [done|]. apply elem_of_app. by left.
        * intros i0 e. rewrite He. unfold PropSql.ent_is. simpl. split.
          -- intros (k & H1 & H2). exists k. split; [done|]. apply elem_of_app. by left.
          -- intros (k & H1 & H2). apply elem_of_app in H2 as [H2|H2]; [by exists k|]. apply elem_of_list_singleton in H2.
             injection H2 as -> _. destruct (A5 _ _ H1) as [e' (k' & F1 & F2)].
             pose proof (proj1 A2 _ _ _ H1 F1) as [= Hk _]. exfalso. subst k'. apply (Hfresh (map fst (t_ns (m_db m)))).
             change (i ∈ (t_ns (m_db m)).*1). by eapply in_keys.
      + unfold ext. simpl. split_and!; try done. intros x Hx. apply elem_of_app. by left.
  Qed.
  Lemma mig_ent_spec m ni e : mwf m -> (ens e, ename e) = split e -> (ni, ens e) ∈ t_ns (m_db m) ->
    exists i m', mig_ent ni e m = (Ok i, m') /\ mstep m m' /\ ent_is (m_db m') i e.
  Proof.
    intros Hm Hse Hni. unfold Migrate.mig_ent. destruct (find_idx (m_ents m) e) as [j|] eqn:Ef.
    - exists j, m. split; [done|]. split; [split; [done|apply ext_refl]|]. apply (mw_ents m Hm). by apply find_idx_some.
    - eexists _, _. split; [reflexivity|]. set (i := fresh (map fst (t_ents (m_db m)))).
      assert (fst (split e) = ens e /\ snd (split e) = ename e) as [Hs1 Hs2] by by rewrite <- Hse.
      assert (forall j, (j, (ni, ename e)) ∉ t_ents (m_db m)) as Hn.
      { intros j Hj. apply (find_idx_none _ _ j Ef). apply (mw_ents m Hm). exists ni. by rewrite Hs1, Hs2. }
      assert (forall x, (i, x) ∉ t_ents (m_db m)) as Hi.
      { intros x Hx. apply (Hfresh (map fst (t_ents (m_db m)))). change (i ∈ (t_ents (m_db m)).*1). by eapply in_keys. }
      assert (ent_is (SDb (t_cuds (m_db m)) (t_ents (m_db m) ++ [(i, (ni, ename e))]) (t_ns (m_db m))
                 (t_types (m_db m)) (t_rels (m_db m)) (t_data (m_db m))) i e) as He0.
      { exists ni. simpl. rewrite Hs1, Hs2. split; [|done]. apply elem_of_app. right. left. }
      split; [|exact He0]. destruct Hm as [Hw Hc Hns He]. pose proof Hw as [A1 A2 A3 A4 A5 A6 A7 A8]. split.
      + assert (wf (SDb (t_cuds (m_db m)) (t_ents (m_db m) ++ [(i, (ni, ename e))]) (t_ns (m_db m))
                 (t_types (m_db m)) (t_rels (m_db m)) (t_data (m_db m)))) as Hw'.
        { split; simpl; try done.
          * by apply functional_app.
          * intros i' x Hx. apply elem_of_app in Hx as [Hx|Hx].
            -- destruct (A5 i' x Hx) as [e' (k & F1 & F2)]. exists e', k. split; [|done]. simpl. apply elem_of_app. by left.
            -- apply elem_of_list_singleton in Hx. injection Hx as -> ->. by exists e.
          * intros a b Hin. rewrite fmap_app, elem_of_app. destruct (A6 a b Hin). tauto.
          * intros a b c Hin. rewrite fmap_app, !elem_of_app. destruct (A7 a b c Hin) as (? & ? & ?). tauto.
          * intros d a b w Hin. rewrite fmap_app, !elem_of_app. destruct (A8 d a b w Hin) as (? & ? & ?). tauto. }
        split; simpl; [done|done|done|]. intros i' e'. rewrite elem_of_app, elem_of_list_singleton, He. split.
        * intros [(k & F1 & F2)|[= -> ->]]; [|done]. exists k. split; [|done]. simpl. apply elem_of_app. by left.
        * intros Hx. pose proof Hx as (k & F1 & F2). simpl in F1, F2. apply elem_of_app in F1 as [F1|F1].
          -- left. by exists k.
          -- apply elem_of_list_singleton in F1. injection F1 as Hi' _. right. subst i'. f_equal.
             exact (ent_fun split join wr rd Hsplit _ i e' e Hw' Hx He0).
      + unfold ext. simpl. split_and!; try done. intros x Hx. apply elem_of_app. by left.
  Qed.
  Lemma mig_entity_spec m e : mwf m -> (ens e, ename e) = split e ->
    exists ni m1 i m', mig_ns (ens e) m = (Ok ni, m1) /\ mig_ent ni e m1 = (Ok i, m') /\ mstep m m' /\ ent_is (m_db m') i e.
  Proof.
    intros Hm Hse. destruct (mig_ns_spec m (ens e) Hm) as (ni & m1 & H1 & H2 & H3).
    destruct (mig_ent_spec m1 ni e (proj1 H2) Hse H3) as (i & m' & H4 & H5 & H6).
    exists ni, m1, i, m'. split; [done|]. split; [done|]. split; [by eapply mstep_trans|done].
  Qed.

  (** an insert that adds one triple *)
  Lemma db_insert_spec T S m t f : minv T S m ->
    (forall s, wfs split wr rd s -> s_db s = m_db m -> exists s', f s = (Ok (), s') /\ wfs split wr rd s' /\
       (t_data (s_db s')).*1 = (t_data (s_db s)).*1 /\ (forall x, stored (s_db s') x <-> stored (s_db s) x \/ x = t)) ->
    (forall s, t_cuds (s_db (snd (f s))) = t_cuds (s_db s) /\ t_ents (s_db (snd (f s))) = t_ents (s_db s) /\ t_ns (s_db (snd (f s))) = t_ns (s_db s)) ->
    exists m', db_insert f m = (Ok (), m') /\ minv T (fun x => S x \/ x = t) m' /\ m_db m' = s_db (snd (f (Sess (m_db m) (t_ns (m_db m))))) /\
      t_cuds (m_db m') = t_cuds (m_db m) /\ t_ents (m_db m') = t_ents (m_db m) /\ t_ns (m_db m') = t_ns (m_db m).
  Proof.
    intros (Hm & HS & HT) Hf Hk. unfold db_insert.
    destruct (Hf (Sess (m_db m) (t_ns (m_db m)))) as (s' & H1 & [H2 _] & H3 & H4); [split; [apply Hm|done]|done|].
    destruct (Hk (Sess (m_db m) (t_ns (m_db m)))) as (K1 & K2 & K3). rewrite H1 in K1, K2, K3. rewrite H1. simpl in *.
    eexists. split; [reflexivity|]. split; [|done]. split; [|split; simpl].
    - destruct Hm as [Hw Hc Hns He]. split; simpl; [done|congruence|congruence|].
      intros i e. rewrite He. unfold PropSql.ent_is. by rewrite K2, K3.
    - intros x. by rewrite H4, HS.
    - intros d. by rewrite HT, H3.
  Qed.
  Lemma keys_types r (s : sess) : t_cuds (s_db (snd (insert_types r s))) = t_cuds (s_db s) /\ t_ents (s_db (snd (insert_types r s))) = t_ents (s_db s) /\ t_ns (s_db (snd (insert_types r s))) = t_ns (s_db s).
  Proof. done. Qed.
  Lemma keys_rels r (s : sess) : t_cuds (s_db (snd (insert_rels r s))) = t_cuds (s_db s) /\ t_ents (s_db (snd (insert_rels r s))) = t_ents (s_db s) /\ t_ns (s_db (snd (insert_rels r s))) = t_ns (s_db s).
  Proof. done. Qed.
  Lemma keys_data d si p v (s : sess) : t_cuds (s_db (snd (insert_data wr d si p v s))) = t_cuds (s_db s) /\ t_ents (s_db (snd (insert_data wr d si p v s))) = t_ents (s_db s) /\ t_ns (s_db (snd (insert_data wr d si p v s))) = t_ns (s_db s).
  Proof. unfold insert_data. destruct (wr d v); [destruct (has_table d s)|]; done. Qed.

  Lemma minv_ext T S S' m : (forall x, S x <-> S' x) -> minv T S m -> minv T S' m.
  Proof. intros HS (H1 & H2 & H3). split; [done|]. split; [|done]. intros t. by rewrite <- HS. Qed.

  (** ** One row *)
  Definition named (e : E) : Prop := (ens e, ename e) = split e.
  Definition adds (T : D -> Prop) (P : mig -> Prop) (f : MM ()) (Q : striple -> Prop) : Prop :=
    forall S m, minv T S m -> P m -> exists m', f m = (Ok (), m') /\ minv T (fun x => S x \/ Q x) m' /\ t_cuds (m_db m) ⊆ t_cuds (m_db m').

  Lemma adds_mseq {A} T (P : mig -> Prop) (f : A -> MM ()) (Q : A -> striple -> Prop) l :
    (forall m m', P m -> t_cuds (m_db m) ⊆ t_cuds (m_db m') -> P m') ->
    (forall a, a ∈ l -> adds T P (f a) (Q a)) -> adds T P (mseq f l) (fun x => exists a, a ∈ l /\ Q a x).
  Proof.
    intros HP. induction l as [|a l IH]; intros Hf S m Hi Hp.
    - exists m. split; [done|]. split; [|done]. eapply minv_ext; [|done]. intros x. split; [by left|]. intros [?|(a & Ha & _)]; [done|].
      by apply elem_of_nil in Ha.
    - destruct (Hf a ltac:(left) S m Hi Hp) as (m1 & H1 & H2 & H3).
      destruct (IH ltac:(intros b Hb; apply Hf; by right) _ m1 H2 ltac:(by eapply HP)) as (m2 & H4 & H5 & H6).
      exists m2. simpl. unfold mmbind. rewrite H1. split; [done|]. split; [|by etrans]. eapply minv_ext; [|exact H5]. intros x. split.
      + intros [[?|?]|(b & Hb & ?)]; [by left|right; exists a; split; [left|done]|right; exists b; split; [by right|done]].
      + intros [?|(b & Hb & ?)]; [by left; left|]. apply elem_of_cons in Hb as [->|Hb]; [by left; right|right; by exists b].
  Qed.

  Lemma mig_master_adds T u c e : named e -> (c = None /\ e = wrapper \/ c = Some (Some e)) ->
    adds T (fun _ => True) (mig_master wrapper ens ename fresh (u, c)) (fun x => x = (u, rdf_type, NEnt e)).
  Proof.
    intros Hn Hc S m Hi _. unfold mig_master, mmbind. simpl.
    assert ((match c with Some c0 => of_option c0 | None => mret wrapper end) m = (Ok e, m)) as ->.
    { destruct Hc as [[-> ->]| ->]; done. }
    destruct (mig_entity_spec m e (proj1 Hi) Hn) as (ni & m1 & oi & m2 & -> & -> & H1 & H2).
    destruct (mig_cuds_spec m2 u (proj1 H1)) as (si & m3 & -> & H3 & H4).
    pose proof (mstep_trans _ _ _ H1 H3) as H5. pose proof (mstep_inv T S m m3 Hi H5) as Hi3.
    pose proof (ext_ent split _ _ oi e (proj2 H3) H2) as H2'.
    destruct (db_insert_spec T S m3 (u, rdf_type, NEnt e) (insert_types (si, oi)) Hi3) as (m4 & -> & H6 & _ & H7 & _).
    - intros s Hs He. eapply insert_types_spec; [exact Hsplit|done|by rewrite He|by rewrite He].
    - intros s. apply keys_types.
    - exists m4. split; [done|]. split; [done|]. rewrite H7. apply H5.
  Qed.

  Lemma mig_rel_adds T u u' r : named r -> (u' = 0 -> named (inverse r)) ->
    adds T (fun _ => True) (mig_rel inverse ens ename fresh (u, u', Some r))
      (fun x => x = (u, r, NCuds u') \/ u' = 0 /\ x = (0, inverse r, NCuds u)).
  Proof.
    intros Hn Hn0 S m Hi _. unfold mig_rel, mmbind. cbn [of_option mret].
    destruct (mig_entity_spec m r (proj1 Hi) Hn) as (ni & m1 & pi & m2 & -> & -> & H1 & H2).
    destruct (mig_cuds_spec m2 u (proj1 H1)) as (si & m3 & -> & H3 & H4).
    destruct (mig_cuds_spec m3 u' (proj1 H3)) as (oi & m4 & -> & H5 & H6).
    pose proof (mstep_trans _ _ _ (mstep_trans _ _ _ H1 H3) H5) as H7. pose proof (mstep_inv T S m m4 Hi H7) as Hi4.
    pose proof (ext_ent split _ _ pi r (proj2 H5) (ext_ent split _ _ pi r (proj2 H3) H2)) as H2'.
    assert ((si, u) ∈ t_cuds (m_db m4)) as H4' by by apply H5.
    destruct (db_insert_spec T S m4 (u, r, NCuds u') (insert_rels (si, pi, oi)) Hi4) as (m5 & -> & H8 & _ & H9 & _).
    - intros s Hs He. eapply insert_rels_spec; [exact Hsplit|done|by rewrite He|by rewrite He|by rewrite He].
    - intros s. apply keys_rels.
    - case_decide as Hd.
      + destruct (mig_entity_spec m5 (inverse r) (proj1 H8) (Hn0 Hd)) as (nj & m6 & pj & m7 & -> & -> & F1 & F2).
        pose proof (mstep_inv T _ m5 m7 H8 F1) as Hi7.
        assert (t_cuds (m_db m4) ⊆ t_cuds (m_db m7)) as Hk. { rewrite <- H9. apply F1. }
        destruct (db_insert_spec T _ m7 (0, inverse r, NCuds u) (insert_rels (oi, pj, si)) Hi7) as (m8 & -> & F3 & _ & F4 & _).
        * intros s Hs He. rewrite <- Hd. eapply insert_rels_spec; [exact Hsplit|done|rewrite He; by apply Hk|by rewrite He|rewrite He; by apply Hk].
        * intros s. apply keys_rels.
        * exists m8. split; [done|]. split; [|rewrite F4; etrans; [apply H7|done]]. eapply minv_ext; [|exact F3]. tauto.
      + exists m5. split; [done|]. split; [|rewrite H9; apply H7]. eapply minv_ext; [|exact H8]. tauto.
  Qed.

  Lemma mig_triple_adds (T : D -> Prop) si u a d v : named a -> T (default xsd_string d) -> good wr rd (default xsd_string d) v ->
    adds T (fun m => (si, u) ∈ t_cuds (m_db m)) (mig_triple xsd_string ens ename wr fresh si (a, d, v))
      (fun x => x = (u, a, NLit v (Some (default xsd_string d)))).
  Proof.
    intros Hn Ht Hg S m Hi Hp. unfold mig_triple, mmbind.
    destruct (mig_entity_spec m a (proj1 Hi) Hn) as (ni & m1 & pi & m2 & -> & -> & H1 & H2).
    pose proof (mstep_inv T S m m2 Hi H1) as Hi2. assert (t_cuds (m_db m) ⊆ t_cuds (m_db m2)) as Hk by apply H1.
    destruct (db_insert_spec T S m2 (u, a, NLit v (Some (default xsd_string d))) (insert_data wr (default xsd_string d) si pi v) Hi2)
      as (m3 & -> & F3 & _ & F4 & _).
    - intros s Hs He. eapply insert_data_spec; [exact kind|exact Hsplit|exact Horder|done|rewrite He; by apply Hk|by rewrite He| |done].
      rewrite He. by apply Hi2.
    - intros s. apply keys_data.
    - exists m3. split; [done|]. split; [done|]. by rewrite F4.
  Qed.

  Lemma mig_row_adds (T : D -> Prop) attrs row u : (forall a, a ∈ attrs -> named (fst a)) ->
    (forall i a d v, attrs !! i = Some (a, d) -> row !! i = Some v -> T (default xsd_string d) /\ good wr rd (default xsd_string d) v) ->
    adds T (fun _ => True) (mig_row xsd_string ens ename wr fresh attrs (row, u))
      (fun x => exists i a d v, attrs !! i = Some (a, d) /\ row !! i = Some v /\ x = (u, a, NLit v (Some (default xsd_string d)))).
  Proof.
    intros Hn Hg S m Hi _. unfold mig_row, mmbind. simpl.
    destruct (mig_cuds_spec m u (proj1 Hi)) as (si & m1 & -> & H1 & H2).
    pose proof (mstep_inv T S m m1 Hi H1) as Hi1.
    destruct (adds_mseq T (fun m => (si, u) ∈ t_cuds (m_db m)) (mig_triple xsd_string ens ename wr fresh si)
                (fun y x => x = (u, fst (fst y), NLit (snd y) (Some (default xsd_string (snd (fst y)))))) (zip attrs row)) with (S := S) (m := m1)
      as (m2 & H3 & H4 & H5); [| |done|done|].
    - intros a b Ha Hk. by apply Hk.
    - intros [[a d] v] Hin. apply elem_of_list_lookup in Hin as [i Hl]. apply lookup_zip_with_Some in Hl as (y & z & [= <- <-] & Hy & Hz).
      simpl. apply mig_triple_adds.
      + apply (Hn (a, d)). by eapply elem_of_list_lookup_2.
      + by eapply Hg.
      + by eapply Hg.
    - exists m2. split; [done|]. split; [|etrans; [apply H1|done]]. eapply minv_ext; [|exact H4]. intros x. apply or_iff_compat_l. split.
      + intros ([[a d] v] & Hin & ->). apply elem_of_list_lookup in Hin as [i Hl]. apply lookup_zip_with_Some in Hl as (y & z & [= <- <-] & Hy & Hz).
        by exists i, a, d, v.
      + intros (i & a & d & v & Hy & Hz & ->). exists (a, d, v). split; [|done]. apply elem_of_list_lookup. exists i.
        apply lookup_zip_with_Some. by exists (a, d), v.
  Qed.

  (** ** All rows *)
  Definition storable_old (T : D -> Prop) (d : old) : Prop :=
    forall u a v dt, old_triple rdf_type wrapper xsd_string inverse d (u, a, NLit v (Some dt)) -> T dt /\ good wr rd dt v.

  Lemma migrate_all_adds T d : known d -> (forall e, occurs wrapper inverse d e -> named e) -> storable_old T d ->
    adds T (fun _ => True) (migrate_all xsd_string wrapper inverse ens ename wr fresh d)
      (old_triple rdf_type wrapper xsd_string inverse d).
  Proof.
    intros (K1 & K2 & K3) Hoc Hst S m Hi _. unfold migrate_all, mmbind.
    destruct (adds_mseq T (fun _ => True) (mig_master wrapper ens ename fresh)
      (fun r x => match snd r with None => x = (fst r, rdf_type, NEnt wrapper) | Some (Some e) => x = (fst r, rdf_type, NEnt e) | _ => False end)
      (o_master d)) with (S := S) (m := m) as (m1 & -> & H1 & G1); [done| |done|done|].
    { intros [u [[e|]|]] Hin; simpl.
      - apply mig_master_adds; [|by right]. apply Hoc. by econstructor.
      - exfalso. by apply (K1 _ _ Hin).
      - apply mig_master_adds; [|by left]. apply Hoc. by econstructor. }
    destruct (adds_mseq T (fun _ => True) (mig_rel inverse ens ename fresh)
      (fun r x => match snd r with None => False | Some e => x = (fst (fst r), e, NCuds (snd (fst r))) \/ snd (fst r) = 0 /\ x = (0, inverse e, NCuds (fst (fst r))) end)
      (o_rels d)) with (S := fun x : striple => S x \/ exists a, a ∈ o_master d /\ match snd a with None => x = (fst a, rdf_type, NEnt wrapper) | Some (Some e) => x = (fst a, rdf_type, NEnt e) | _ => False end) (m := m1) as (m2 & -> & H2 & G2); [done| |done|done|].
    { intros [[u u'] [e|]] Hin; simpl.
      - apply mig_rel_adds.
        + apply Hoc. by eapply oc_rel.
        + intros ->. apply Hoc. by eapply oc_to_root.
      - exfalso. by apply (K2 _ _ _ Hin). }
    destruct (adds_mseq T (fun _ => True) (mig_table xsd_string ens ename wr fresh)
      (fun t x => exists attrs row u i a dt v, fst t = Some attrs /\ (row, u) ∈ snd t /\ attrs !! i = Some (a, dt) /\ row !! i = Some v /\
                    x = (u, a, NLit v (Some (default xsd_string dt)))) (o_data d)) with (S := fun x : striple => (S x \/ exists a, a ∈ o_master d /\ match snd a with None => x = (fst a, rdf_type, NEnt wrapper) | Some (Some e) => x = (fst a, rdf_type, NEnt e) | _ => False end) \/ exists r, r ∈ o_rels d /\ match snd r with None => False | Some e => x = (fst (fst r), e, NCuds (snd (fst r))) \/ snd (fst r) = 0 /\ x = (0, inverse e, NCuds (fst (fst r))) end) (m := m2) as (m3 & -> & H3 & G3); [done| |done|done|].
    { intros [[attrs|] rows] Hin; [|exfalso; by apply (K3 _ _ Hin)]. intros S' m' Hi' _. unfold mig_table, mmbind. simpl.
      destruct (adds_mseq T (fun _ => True) (mig_row xsd_string ens ename wr fresh attrs)
        (fun r x => exists i a d v, attrs !! i = Some (a, d) /\ fst r !! i = Some v /\ x = (snd r, a, NLit v (Some (default xsd_string d)))) rows)
        with (S := S') (m := m') as (m4 & -> & H4 & G4); [done| |done|done|].
      - intros [row u] Hr. apply mig_row_adds.
        + intros a Ha. apply Hoc. by eapply oc_attr.
        + intros i a dt v Hy Hz. apply (Hst u a v). by eapply ot_attr.
      - exists m4. split; [done|]. split; [|done]. eapply minv_ext; [|exact H4]. intros x. apply or_iff_compat_l. split.
        + intros ([row u] & Hr & i & a & dt & v & Hy & Hz & ->). by exists attrs, row, u, i, a, dt, v.
        + intros (attrs' & row & u & i & a & dt & v & [= <-] & Hr & Hy & Hz & ->). exists (row, u). split; [done|]. by exists i, a, dt, v. }
    exists m3. split; [done|]. split; [|by etrans; [|etrans; [exact G2|]]]. eapply minv_ext; [|exact H3]. intros x. split.
    - intros [[[?|([u [[e|]|]] & Hr & Hx)]|([[u u'] [e|]] & Hr & Hx)]|([t rows] & Hr & attrs & row & u & i & a & dt & v & Ht & Hrow & Hy & Hz & ->)];
        simpl in *; [by left|right..]; try done; try subst.
      + by apply ot_class.
      + by apply ot_root.
      + destruct Hx as [->|[-> ->]]; [by apply ot_rel|by apply ot_to_root].
      + by eapply ot_attr.
    - intros [?|Hx]; [by left; left; left|]. destruct Hx as [u c Hin|u Hin|u u' r Hin|u r Hin|attrs rows row u i a dt v Hin Hrow Hy Hz].
      + left; left; right. by exists (u, Some (Some c)).
      + left; left; right. by exists (u, None).
      + left; right. exists (u, u', Some r). split; [done|]. by left.
      + left; right. exists (u, 0, Some r). split; [done|]. by right.
      + right. exists (Some attrs, rows). split; [done|]. by exists attrs, row, u, i, a, dt, v.
  Qed.
End Proofs.

(** ** C37 *)
Section Theorems.
  Context {E NS NM D V W : Type}.
  Context `{EqDecision E} `{EqDecision NS} `{EqDecision NM} `{EqDecision D} `{EqDecision V} `{EqDecision W}.
  Context (rdf_type : E) (xsd_string : D) (wrapper : E) (inverse : E -> E).
  Context (split : E -> NS * NM) (join : NS -> NM -> E) (kind : E -> option (pkind D)).
  Context (ens : E -> NS) (ename : E -> NM).
  Context (wr : D -> V -> option W) (rd : D -> W -> V).
  Context (fresh : list N -> N) (order : list (table D) -> list (table D)).
  Context (Hsplit : forall e, join (fst (split e)) (snd (split e)) = e).
  Context (Hfresh : forall l, fresh l ∉ l) (Horder : forall l t, t ∈ order l <-> t ∈ l).
  Notation old_triple := (old_triple rdf_type wrapper xsd_string inverse).
  Notation migrate_0_1 := (migrate_0_1 xsd_string wrapper inverse ens ename wr fresh).
  Notation load := (load_triples_for_iri rdf_type xsd_string split join kind wr rd fresh order).

  (** A database of the old schema without tables of the new one, whose names are all
      known, whose entities are named by the suffix of their IRI and whose values have
      tables, is migrated without error; the old tables are gone, and a session opened
      on the result loads, for each object, exactly the triples the old database stood
      for. *)
  Theorem C37_migrate tables tabs tabs' (d : old E D V) :
    TMaster ∈ tables -> TV1 ∉ tables -> known d ->
    (forall e, occurs wrapper inverse d e -> (ens e, ename e) = split e) ->
    (forall u a v dt, old_triple d (u, a, NLit v (Some dt)) -> dt ∈ tabs /\ exists w, wr dt v = Some w /\ rd dt w = v) ->
    init tables = Ok Migrate01 /\
    exists db, migrate_0_1 tables tabs d empty_db = (Ok (), (None, db)) /\
      forall u, exists r n, load u (initialize tabs' db) = (Ok (r, n), initialize tabs' db) /\
        (forall t, t ∈ r <-> old_triple d t /\ fst (fst t) = u) /\
        (forall t, t ∈ n <-> old_triple d t /\ exists u' e p, t = (u', rdf_type, NEnt e) /\ old_triple d (u, p, NCuds u')).
  Proof.
    intros HM HV Hk Ho Hs. split.
    { unfold init, detect. destruct tables as [|t0 l0]; [by apply elem_of_nil in HM|]. by rewrite bool_decide_eq_true_2. }
    unfold Migrate.migrate_0_1.
    assert (inv rdf_type split wr rd (fun _ => False) (fun _ => False) (Sess (empty_db : sdb NS NM D W) [])) as Hi0.
    { split; [split; [|done]|split].
      - split; simpl; try apply functional_nil; [constructor| | | |].
        all: intros; match goal with Hx : _ ∈ [] |- _ => by apply elem_of_nil in Hx end.
      - intros [[u p] o]. split; [|done]. intros (si & Hsi & _). by apply elem_of_nil in Hsi.
      - intros dd. simpl. split; [done|]. intros Hx. by apply elem_of_nil in Hx. }
    pose proof (initialize_spec rdf_type split kind wr rd order Horder _ _ _ tabs Hi0) as ([Hw1 Hc1] & HS1 & HT1). simpl in Hw1, Hc1, HS1, HT1.
    destruct (migrate_all_adds rdf_type xsd_string wrapper inverse split join kind ens ename wr rd fresh order Hsplit Hfresh Horder
      (fun dt => dt ∈ tabs) d Hk Ho) with (S := fun _ : striple E D V => False) (m := Mig (s_db (initialize tabs (empty_db : sdb NS NM D W))) ([] : list (N * NS)) ([] : list (N * E)) [])
      as (m' & -> & (Hm & HS & HT) & _); [exact Hs| |done|].
    { split; [|split; simpl].
      - split; simpl; [done|done|done|]. intros i e. split; [intros Hx; by apply elem_of_nil in Hx|]. intros (n & Hn & _). by apply elem_of_nil in Hn.
      - intros t. apply HS1.
      - intros dt. specialize (HT1 dt). simpl in HT1. rewrite <- HT1. tauto. }
    rewrite bool_decide_eq_false_2 by done. exists (m_db m'). split; [done|]. intros u.
    assert (inv rdf_type split wr rd (fun dt => dt ∈ tabs) (old_triple d) (Sess (m_db m') (t_ns (m_db m')))) as Hi'.
    { split; [split; [apply Hm|done]|]. split; [|exact HT]. intros t. simpl. rewrite HS. tauto. }
    pose proof (initialize_spec rdf_type split kind wr rd order Horder _ _ _ tabs' Hi') as Hi2. simpl in Hi2.
    destruct (load_spec rdf_type xsd_string split join kind wr rd fresh order Hsplit Hfresh Horder _ u (proj1 Hi2)) as (r & n & H1 & H2 & H3).
    exists r, n. destruct Hi2 as (_ & HS2 & _). split; [done|]. split.
    - intros t. by rewrite H2, HS2.
    - intros t. rewrite H3, HS2. by setoid_rewrite HS2.
  Qed.

  (** If the migration raises (an unknown name, a value that cannot be converted, a
      datatype without table), the database is as it was: the transaction is rolled
      back before the old tables are dropped. *)
  Theorem C37_failure tables tabs (d : old E D V) v1 e x :
    migrate_0_1 tables tabs d v1 = (Err e, x) -> x = (Some d, v1).
  Proof. unfold Migrate.migrate_0_1. destruct (migrate_all _ _ _ _ _ _ _ _ _) as [[?|?] ?]; congruence. Qed.
  (** An unknown name is such a failure: no row is silently dropped. *)
  Lemma seq_err {A} (f : A -> MM (E:=E) (NS:=NS) (NM:=NM) (D:=D) (W:=W) ()) l a m : a ∈ l -> (forall m', exists e', fst (f a m') = Err e') ->
    exists e', fst (mseq f l m) = Err e'.
  Proof.
    intros Hin Ha. revert m. induction l as [|b l IH]; [by apply elem_of_nil in Hin|]. intros m. simpl. unfold mmbind.
    destruct (f b m) as [[[]|e] m'] eqn:Eb; [|by exists e]. apply elem_of_cons in Hin as [->|Hin]; [|by apply IH].
    destruct (Ha m) as [e' He']. rewrite Eb in He'. done.
  Qed.
  Theorem C37_unknown_name tables tabs (d : old E D V) v1 : ~ known d ->
    exists e, migrate_0_1 tables tabs d v1 = (Err e, (Some d, v1)).
  Proof.
    intros Hk. enough (forall m, exists e', fst (migrate_all xsd_string wrapper inverse ens ename wr fresh d m) = Err e') as Hm.
    { unfold Migrate.migrate_0_1. destruct (Hm (Mig (s_db (initialize tabs v1)) [] [] [])) as [e He].
      destruct (migrate_all _ _ _ _ _ _ _ _ _) as [[?|e'] ?]; [done|]. exists e'. done. }
    intros m. unfold migrate_all, mmbind.
    destruct (decide (Exists (fun r : N * option (option E) => snd r = Some None) (o_master d))) as [Hx|Hx].
    { apply stdpp.list.Exists_exists in Hx as ([u c] & Hin & Hc). simpl in Hc. subst.
      destruct (seq_err (mig_master wrapper ens ename fresh) (o_master d) (u, Some None) m Hin) as [e He]; [intros m'; by eexists|].
      destruct (mseq (mig_master wrapper ens ename fresh) (o_master d) m) as [[?|?] ?]; [done|]. by eexists. }
    destruct (mseq (mig_master wrapper ens ename fresh) (o_master d) m) as [[[]|e1] m1]; [|by exists e1].
    destruct (decide (Exists (fun r : N * N * option E => snd r = None) (o_rels d))) as [Hy|Hy].
    { apply stdpp.list.Exists_exists in Hy as ([[u u'] c] & Hin & Hc). simpl in Hc. subst.
      destruct (seq_err (mig_rel inverse ens ename fresh) (o_rels d) (u, u', None) m1 Hin) as [e He]; [intros m'; by eexists|].
      destruct (mseq (mig_rel inverse ens ename fresh) (o_rels d) m1) as [[?|?] ?]; [done|]. by eexists. }
    destruct (mseq (mig_rel inverse ens ename fresh) (o_rels d) m1) as [[[]|e1] m2]; [|by exists e1].
    destruct (decide (Exists (fun r : option (list (E * option D)) * list (list V * N) => fst r = None) (o_data d))) as [Hz|Hz].
    { apply stdpp.list.Exists_exists in Hz as ([[t|] rows] & Hin & Hc); [done|].
      destruct (seq_err (mig_table xsd_string ens ename wr fresh) (o_data d) (None, rows) m2 Hin) as [e He]; [intros m'; by eexists|]. by eexists. }
    exfalso. apply Hk. split_and!.
    - intros u c Hin ->. apply Hx, stdpp.list.Exists_exists. by exists (u, Some None).
    - intros u u' r Hin ->. apply Hy, stdpp.list.Exists_exists. by exists (u, u', None).
    - intros a rows Hin ->. apply Hz, stdpp.list.Exists_exists. by exists (None, rows).
  Qed.

  (** A session refuses exactly the databases with tables of the old schema and those
      with tables of neither; after the migration it accepts. *)
  Theorem C37_check tables :
    (check_supported tables = Ok true <-> tables = [] \/ TMaster ∉ tables /\ TV1 ∈ tables) /\
    (check_supported tables <> Ok true -> check_supported tables = Err RuntimeError).
  Proof.
    unfold check_supported, detect. destruct tables as [|t l].
    - split; [|done]. split; [by left|done].
    - destruct (decide (TMaster ∈ t :: l)) as [H1|H1]; [rewrite (bool_decide_eq_true_2 _ H1)|rewrite (bool_decide_eq_false_2 _ H1)].
      + split; [|done]. split; [done|]. intros [?|[? _]]; done.
      + destruct (decide (TV1 ∈ t :: l)) as [H2|H2]; [rewrite (bool_decide_eq_true_2 _ H2)|rewrite (bool_decide_eq_false_2 _ H2)].
        * split; [|done]. split; [by right|done].
        * split; [|done]. split; [done|]. intros [?|[_ ?]]; done.
  Qed.
End Theorems.

(** ** Examples *)
(* entities are pairs of a namespace and a suffix; the wrapper class is (3, 9) *)
Definition xinv (e : N * N) : N * N := (fst e, snd e + 1).
Definition mtables : list tname := [TMaster; TRelationships; TCuds 1].
Definition md : old (N * N) N N :=
  Old [(0, None); (10, Some (Some (3, 1))); (11, Some (Some (3, 2)))]
      [(0, 10, Some (1, 1)); (10, 0, Some (1, 2)); (10, 11, Some (1, 1)); (11, 10, Some (1, 2))]
      [(Some [((2, 1), Some 4); ((2, 2), None)], [([7; 8], 10); ([5; 6], 11)])].
Notation xmigrate := (migrate_0_1 4 (3, 9) xinv fst snd xwr xfresh).
Notation xload := (load_triples_for_iri xT 4 id pair xkind xwr xrd xfresh id).
Example C37_example_known : known md.
Proof.
  split_and!; simpl.
  - intros u c Hin. intros ->. in_cases Hin; discriminate Hin.
  - intros u u' r Hin. intros ->. in_cases Hin; discriminate Hin.
  - intros a r Hin. intros ->. in_cases Hin; discriminate Hin.
Qed.
Example C37_example_hyps :
  TMaster ∈ mtables /\ TV1 ∉ mtables /\
  (forall e, occurs (3, 9) xinv md e -> (fst e, snd e) = id e) /\
  (forall u a v dt, old_triple xT (3, 9) 4 xinv md (u, a, NLit v (Some dt)) -> dt ∈ [4] /\ exists w, xwr dt v = Some w /\ xrd dt w = v).
Proof.
  split; [left|]. split; [intros Hin; unfold mtables in Hin; in_cases Hin; done|]. split; [by intros [a b]|].
  intros u a v dt Ht. inversion Ht as [| | | |attrs rows row u0 i a0 d0 v0 H1 H2 H3 H4]; subst. split.
  - simpl in H1. in_cases H1. injection H1 as -> ->. apply elem_of_list_lookup_2 in H3. in_cases H3; injection H3 as _ ->; left.
  - exists (v + 1). split; [done|]. unfold xrd. lia.
Qed.
Example C37_example :
  let db := snd (snd (xmigrate mtables [4] md empty_db)) in
  fst (xmigrate mtables [4] md empty_db) = Ok () /\
  fst (xload 10 (initialize [4] db)) =
    Ok ([(10, (1, 1), NCuds 11); (10, (1, 2), NCuds 0); (10, xT, NEnt (3, 1)); (10, (2, 1), NLit 7 (Some 4)); (10, (2, 2), NLit 8 (Some 4))],
        [(11, xT, NEnt (3, 2)); (0, xT, NEnt (3, 9))]).
Proof. vm_compute. split; reflexivity. Qed.

(** Refuted: names that are not the suffix of the IRI (ontologies referenced by label,
    C38).  The name is stored, but read back as the suffix: here the entity (3, 1),
    called 101, is afterwards the entity (3, 101). *)
Theorem C37_by_label_refuted :
  let d := Old (V := N) (D := N) [(10, Some (Some (3, 1)))] [] [] in
  let r := migrate_0_1 4 (3, 9) xinv fst (fun e : N * N => snd e + 100) xwr xfresh mtables [4] d empty_db in
  fst r = Ok () /\ fst (xload 10 (initialize [4] (snd (snd r)))) = Ok ([(10, xT, NEnt (3, 101))], []).
Proof. vm_compute. split; reflexivity. Qed.

(** Refuted: the tool can be run on a database that is current or empty (KeyError). *)
Theorem C37_already_current_refuted : init [TV1] = Err KeyError /\ init [] = Err KeyError.
Proof. vm_compute. split; reflexivity. Qed.

(** Refuted: migrating keeps the data.  When tables of the new schema exist beside the
    old ones, all of them are dropped after the migration: nothing is left. *)
Theorem C37_mixed_refuted tabs d (v1 : sdb N N N N) :
  fst (xmigrate (TV1 :: mtables) tabs d v1) = Ok () -> snd (xmigrate (TV1 :: mtables) tabs d v1) = (None, empty_db).
Proof.
  unfold migrate_0_1. destruct (migrate_all _ _ _ _ _ _ _ _ _) as [[?|?] ?]; [|done]. intros _. simpl.
  done.
Qed.
Example C37_mixed_example :
  init (TV1 :: mtables) = Ok Migrate01 /\ fst (xmigrate (TV1 :: mtables) [4] md empty_db) = Ok ().
Proof. vm_compute. split; reflexivity. Qed.

Print Assumptions C37_migrate.
Print Assumptions C37_failure.
Print Assumptions C37_unknown_name.
Print Assumptions C37_check.
Print Assumptions C37_by_label_refuted.
Print Assumptions C37_mixed_refuted.
