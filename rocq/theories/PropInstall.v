(** Theorems about installing and uninstalling ontology packages (C38, C39). *)
From stdpp Require Import base list gmap.
From Verif Require Import Prelude Install.
Local Open Scope N_scope.

Section Theorems.
  Context (lower : N -> N) (Hlow : forall n, lower (lower n) = lower n).
  Context (has_dot : N -> bool) (ext : N -> option doc).
  Context (ord : list path -> list path) (ordn : list N -> list N).
  Context (Hord : forall l, ord l ≡ₚ l) (Hordn : forall l, ordn l ≡ₚ l).
  Notation ident := (ident lower).
  Notation sort_docs := (sort_docs lower).
  Notation install := (install lower has_dot ext ord).
  Notation uninstall := (uninstall lower has_dot ext ordn).
  Notation install_overwrite := (install_overwrite lower has_dot ext ordn).
  Notation istep := (istep lower has_dot ext ord ordn).
  Notation read := (read ext).

  (** ** C38 *)

  (** Specification: in the list, everything a package requires is already
      installed or is an earlier package. *)
  Definition requirements_first (installed : gset N) (l : list doc) : Prop :=
    forall pre d post, l = pre ++ d :: post ->
      forall r, r ∈ reqs d -> r ∈ installed \/ exists d', d' ∈ pre /\ ident d' = r.

  Lemma map_split {A B} (f : A -> B) l pre b post :
    map f l = pre ++ b :: post -> exists p a q, l = p ++ a :: q /\ map f p = pre /\ f a = b /\ map f q = post.
  Proof.
    revert pre. induction l as [|x l IH]; intros pre H; [by destruct pre|].
    destruct pre as [|y pre]; cbn in H; injection H as H1 H2.
    - exists [], x, l. done.
    - apply IH in H2 as (p & a & q & -> & <- & <- & <-). exists (x :: p), a, q. by rewrite <- H1.
  Qed.

  Lemma order_requirements installed l :
    order_ok installed (map (fun d => (ident d, d)) l) <-> requirements_first installed l.
  Proof.
    split.
    - intros Ho pre d post -> r Hr. rewrite map_app in Ho. cbn in Ho.
      destruct (Ho _ _ _ eq_refl r Hr) as [?|Hin]; [by left|right].
      apply elem_of_list_fmap in Hin as (x & -> & Hx). apply elem_of_list_In, in_map_iff in Hx as (d' & <- & Hd).
      exists d'. split; [by apply elem_of_list_In|done].
    - intros Hq pre e post H r Hr. apply map_split in H as (p & a & q & -> & <- & <- & <-).
      destruct (Hq p a q eq_refl r Hr) as [?|(d' & Hd & <-)]; [by left|right].
      apply elem_of_list_fmap. exists (ident d', d'). split; [done|].
      apply elem_of_list_In, in_map_iff. exists d'. split; [done|by apply elem_of_list_In].
  Qed.

  (** Success: nothing lost, nothing duplicated, requirements first. *)
  Theorem C38_order_sound installed ds l :
    NoDup (map ident ds) -> sort_docs ds installed = Ok l ->
    l ≡ₚ ds /\ requirements_first installed l.
  Proof.
    intros Hn Hs. destruct (sort_docs_spec lower ds installed) as [(l' & Hs' & Hp & Ho)|[Hs' _]];
      rewrite Hs in Hs'; [|done]. apply Ok_inj in Hs' as <-.
    split; [|by apply order_requirements]. rewrite by_ident_distinct in Hp by done. cbn in Hp.
    apply (Permutation_map snd) in Hp. rewrite !map_map in Hp. cbn in Hp. by rewrite !map_id in Hp.
  Qed.

  (** Files that share an identifier: one of each identifier is installed. *)
  Theorem C38_same_identifier installed ds l :
    sort_docs ds installed = Ok l ->
    NoDup (map ident l) /\ (forall d, d ∈ l -> d ∈ ds) /\
    (forall d, d ∈ ds -> exists d', d' ∈ l /\ ident d' = ident d) /\
    requirements_first installed l.
  Proof.
    intros Hs. destruct (sort_docs_spec lower ds installed) as [(l' & Hs' & Hp & Ho)|[Hs' _]];
      rewrite Hs in Hs'; [|done]. apply Ok_inj in Hs' as <-.
    assert (Hnil : NoDup (@nil (N * doc)).*1) by constructor.
    assert (Hkeys : map ident l ≡ₚ (by_ident lower ds []).*1).
    { rewrite <- Hp, list_fmap_alt, map_map. done. }
    split; [|split; [|split]].
    - rewrite Hkeys. by apply by_ident_nodup.
    - intros d Hd. assert (Hin : (ident d, d) ∈ by_ident lower ds []).
      { rewrite <- Hp. apply elem_of_list_In, in_map_iff. exists d. split; [done|by apply elem_of_list_In]. }
      apply by_ident_ident in Hin as [_ [Hin|?]]; [by apply elem_of_nil in Hin|done|done|].
      intros e He. by apply elem_of_nil in He.
    - intros d Hd. assert (Hin : ident d ∈ map ident l).
      { rewrite Hkeys. apply by_ident_keys. right. eauto. }
      apply elem_of_list_In, in_map_iff in Hin as (d' & Heq & Hd'). exists d'.
      split; [by apply elem_of_list_In|done].
    - by apply order_requirements.
  Qed.

  (** Failure exactly if no order is possible. *)
  Theorem C38_fails_iff_impossible installed ds :
    NoDup (map ident ds) ->
    (sort_docs ds installed = Err RuntimeError <->
       forall l, l ≡ₚ ds -> ~ requirements_first installed l) /\
    (forall e, sort_docs ds installed = Err e -> e = RuntimeError).
  Proof.
    intros Hn. destruct (sort_docs_spec lower ds installed) as [(l' & Hs' & Hp & Ho)|[Hs' Hno]].
    - rewrite Hs'. split; [|done]. split; [done|]. intros H.
      destruct (C38_order_sound installed ds l' Hn Hs') as [Hp' Ho']. by destruct (H l' Hp').
    - rewrite Hs'. split; [|by intros e [= <-]]. split; [|done]. intros _ l Hl Ho.
      apply (Hno (map (fun d => (ident d, d)) l)); [|by apply order_requirements].
      rewrite by_ident_distinct by done. cbn. by rewrite Hl.
  Qed.

  (** Failure exactly if there is a group of packages each of which waits for
      something that is neither installed nor provided outside of the group
      (missing, or provided only within the group). *)
  Theorem C38_fails_iff_missing_or_cyclic installed ds :
    NoDup (map ident ds) ->
    (exists e, sort_docs ds installed = Err e) <->
    exists S, S <> [] /\ S ⊆ ds /\ forall d, d ∈ S -> exists r, r ∈ reqs d /\ r ∉ installed /\
      forall d', d' ∈ ds -> ident d' = r -> d' ∈ S.
  Proof.
    intros Hn. split.
    - intros [e He]. unfold Install.sort_docs in He. cbv zeta in He.
      rewrite by_ident_distinct in He by done. cbn [app] in He.
      set (files := map (fun d => (ident d, d)) ds) in *.
      destruct (sort_loop (length files) installed files []) as [l|e'] eqn:E; [done|].
      apply sort_loop_err in E as (_ & S & Hne & Hsub & HS); [|done]. cbn [app] in HS.
      assert (Hfile : forall x, x ∈ files -> x.1 = ident x.2 /\ x.2 ∈ ds).
      { intros x Hx. apply elem_of_list_In, in_map_iff in Hx as (d & <- & Hd).
        split; [done|by apply elem_of_list_In]. }
      exists (map snd S). split; [by destruct S|]. split.
      + intros d Hd. apply elem_of_list_In, in_map_iff in Hd as (x & <- & Hx).
        apply Hfile, Hsub. by apply elem_of_list_In.
      + intros d Hd. apply elem_of_list_In, in_map_iff in Hd as (x & <- & Hx).
        apply elem_of_list_In in Hx. destruct (HS x Hx) as (r & Hr & Hri & Hy).
        exists r. split; [done|]. split; [done|]. intros d' Hd' Heq.
        apply elem_of_list_In, in_map_iff. exists (ident d', d'). split; [done|].
        apply elem_of_list_In. apply Hy; [|done]. apply elem_of_list_In, in_map_iff.
        exists d'. split; [done|by apply elem_of_list_In].
    - intros (S & Hne & Hsub & HS).
      destruct (sort_docs ds installed) as [l|e] eqn:E; [exfalso|eauto].
      destruct (C38_order_sound installed ds l Hn E) as [Hp Ho].
      (* the first member of S in the order *)
      assert (Hfirst : exists pre d post, l = pre ++ d :: post /\ d ∈ S /\ forall x, x ∈ pre -> x ∉ S).
      { assert (Hex : exists d, d ∈ l /\ d ∈ S).
        { destruct S as [|d S]; [done|]. exists d. split; [rewrite Hp; apply Hsub; left|left]. }
        clear -Hex. induction l as [|x l IH]; destruct Hex as (d & Hd & HdS); [by apply elem_of_nil in Hd|].
        destruct (decide (x ∈ S)) as [Hx|Hx].
        - exists [], x, l. split; [done|]. split; [done|]. intros y Hy. by apply elem_of_nil in Hy.
        - destruct IH as (pre & y & post & -> & Hy & Hpre).
          { apply elem_of_cons in Hd as [->|Hd]; [done|]. eauto. }
          exists (x :: pre), y, post. split; [done|]. split; [done|]. intros z Hz.
          apply elem_of_cons in Hz as [->|Hz]; auto. }
      destruct Hfirst as (pre & d & post & Hl & Hd & Hpre).
      destruct (HS d Hd) as (r & Hr & Hri & Hall).
      destruct (Ho pre d post Hl r Hr) as [?|(d' & Hd' & Heq)]; [done|].
      apply (Hpre d' Hd'), Hall; [|done]. rewrite <- Hp, Hl. apply elem_of_app. by left.
  Qed.

  (** ** Histories *)

  (** Packages are stored under their identifier, and what they require is
      installed. *)
  Definition keyed (m : gmap N doc) : Prop := forall i d, m !! i = Some d -> ident d = i.
  Definition closed (m : gmap N doc) : Prop :=
    forall i d, m !! i = Some d -> forall r, r ∈ reqs d -> r ∈ dom m.

  Lemma ident_stored d : ident (stored d) = ident d.
  Proof. unfold stored. by destruct (d_rdf d) eqn:E. Qed.
  Lemma reqs_stored d : reqs (stored d) = reqs d.
  Proof. unfold stored. by destruct (d_rdf d) eqn:E. Qed.

  Lemma fold_store_inv ds : forall m,
    keyed m -> closed m -> requirements_first (dom m) ds ->
    keyed (foldl (fun m d => <[ident d := stored d]> m) m ds) /\
    closed (foldl (fun m d => <[ident d := stored d]> m) m ds).
  Proof.
    induction ds as [|d ds IH]; intros m Hk Hc Hr; cbn; [done|]. apply IH.
    - intros i d' H. apply lookup_insert_Some in H as [[<- <-]|[_ H]]; [apply ident_stored|by apply Hk].
    - intros i d' H r Hin. rewrite dom_insert. apply elem_of_union.
      apply lookup_insert_Some in H as [[<- <-]|[_ H]].
      + right. rewrite reqs_stored in Hin.
        destruct (Hr [] d ds eq_refl r Hin) as [?|(x & Hx & _)]; [done|by apply elem_of_nil in Hx].
      + right. by eapply Hc.
    - intros pre x post -> r Hin. rewrite dom_insert.
      destruct (Hr (d :: pre) x post eq_refl r Hin) as [?|(y & Hy & <-)].
      + left. apply elem_of_union. by right.
      + apply elem_of_cons in Hy as [->|Hy]; [|right; eauto]. left. apply elem_of_union_l. by apply elem_of_singleton.
  Qed.

  Lemma requirements_first_prefix installed a b :
    requirements_first installed (a ++ b) -> requirements_first installed a.
  Proof.
    intros H pre d post -> r Hr. apply (H pre d (post ++ b)); [|done]. by rewrite <- app_assoc.
  Qed.

  Lemma install_core_inv st files clear :
    keyed (disk st) -> closed (disk st) ->
    let st' := fst (install_core lower has_dot ext st files clear) in
    keyed (disk st') /\ closed (disk st').
  Proof.
    intros Hk Hc. cbv zeta. unfold install_core.
    destruct files as [files|e]; [|done].
    unfold sort_for_installation.
    destruct (mapM _ files) as [ds|e]; [|done].
    destruct (sort_docs ds (if clear then ∅ else dom (disk st))) as [l|e] eqn:E; [|done].
    destruct (parse_all has_dot _ l) as [m [e|]]; [done|].
    destruct (store_all lower (if clear then ∅ else disk st) l) as [dk e] eqn:Es. cbn.
    apply C38_same_identifier in E as (_ & _ & _ & Hr).
    apply store_all_spec in Es as (dn & td & -> & -> & _ & _).
    apply requirements_first_prefix in Hr. apply fold_store_inv.
    - by destruct clear.
    - by destruct clear.
    - destruct clear; [|done]. by rewrite dom_empty_L.
  Qed.

  (** Whatever is installed, uninstalled or overwritten, also with errors in
      between: the requirements of installed packages are installed. *)
  Theorem C38_history_requirements_installed ops i d r :
    disk (foldl istep (Inst ∅ {[cuba_content]}) ops) !! i = Some d -> r ∈ reqs d ->
    r ∈ dom (disk (foldl istep (Inst ∅ {[cuba_content]}) ops)).
  Proof.
    assert (H : forall ops st, keyed (disk st) -> closed (disk st) ->
              keyed (disk (foldl istep st ops)) /\ closed (disk (foldl istep st ops))).
    { clear ops i d r. induction ops as [|o ops IH]; intros st Hk Hc; cbn; [done|].
      destruct (install_core_inv st (match o with
        | IInstall l => new_packages lower ext ord st l
        | IUninstall l => remaining_packages lower ext ordn st l
        | IOverwrite l => replaced_packages lower ext ordn st l end)
        (match o with IInstall _ => false | _ => true end) Hk Hc) as [H1 H2].
      apply IH; destruct o; done. }
    intros Hd Hr. destruct (H ops (Inst ∅ {[cuba_content]})) as [_ Hc]; [done|done|].
    exact (Hc i d Hd r Hr).
  Qed.

  (** ** C39 *)

  (** Packages whose OWL identifier is written in lower case. *)
  Definition lower_ids (st : inst) : Prop :=
    forall p d, read st p = Some d -> d_rdf d = true -> ident d = d_id d.

  Lemma mapM_read st files ds :
    mapM (fun p => match read st p with Some d => Ok d | None => Err OSError end) files = Ok ds ->
    Forall2 (fun p d => read st p = Some d) files ds.
  Proof.
    revert ds. induction files as [|p files IH]; intros ds H; cbn in H.
    - apply Ok_inj in H as <-. constructor.
    - destruct (read st p) as [d|] eqn:E; [|done].
      destruct (mapM _ files) as [ds'|e]; [|done]. apply Ok_inj in H as <-.
      constructor; [done|]. by apply IH.
  Qed.

  Lemma install_core_disk_kept st files clear st' e :
    lower_ids st -> install_core lower has_dot ext st files clear = (st', Some e) ->
    disk st' = disk st.
  Proof.
    intros Hl. unfold install_core. destruct files as [files|e']; [|by intros [= <- _]].
    unfold sort_for_installation. destruct (mapM _ files) as [ds|e'] eqn:Em; [|by intros [= <- _]].
    apply mapM_read in Em.
    destruct (sort_docs ds (if clear then ∅ else dom (disk st))) as [l|e'] eqn:E; [|by intros [= <- _]].
    destruct (parse_all has_dot _ l) as [m [e'|]]; [by intros [= <- _]|].
    destruct (store_all lower (if clear then ∅ else disk st) l) as [dk e'] eqn:Es.
    apply store_all_spec in Es as (dn & td & -> & _ & _ & Herr). intros [= _ Hsome].
    destruct Herr as (d & t & -> & Hrdf & Hid & _); [by rewrite Hsome|]. exfalso. apply Hid.
    apply C38_same_identifier in E as (_ & Hin & _).
    assert (Hd : d ∈ ds). { apply Hin. apply elem_of_app. right. left. }
    apply elem_of_list_lookup in Hd as [k Hd].
    destruct (Forall2_lookup_r _ _ _ _ _ Em Hd) as (p & _ & Hp). by apply (Hl p).
  Qed.

  (** A failing call leaves the installation directory as it was (packages with
      lower-case identifiers; see the refutation below otherwise). *)
  Theorem C39_failure_keeps_installed_packages st st' e :
    lower_ids st ->
    (exists l, install st l = (st', Some e)) \/ (exists l, uninstall st l = (st', Some e)) \/
    (exists l, install_overwrite st l = (st', Some e)) ->
    disk st' = disk st.
  Proof.
    intros Hl [[l H]|[[l H]|[l H]]]; by eapply install_core_disk_kept.
  Qed.

  (** Installed packages as written by the program: stored under their
      identifier, ontology file in XML. *)
  Definition as_stored (m : gmap N doc) : Prop :=
    keyed m /\ forall i d, m !! i = Some d -> stored d = d.
  (** The registry holds cuba and the contents of the installed packages. *)
  Definition registry_matches (st : inst) : Prop :=
    forall c, c ∈ mem st <-> c = cuba_content \/ exists i d, disk st !! i = Some d /\ d_content d = c.

  (** Which packages an uninstall call names. *)
  Definition names (st : inst) (args : list uarg) (n : N) : Prop :=
    UName n ∈ args \/ exists p d, UPath p ∈ args /\ read st p = Some d /\ ident d = n.

  Lemma collect_spec st args acc :
    match collect_removed lower ext st args acc with
    | Ok rm => (forall n, n ∈ rm <-> n ∈ acc \/ names st args n) /\
               (forall n, names st args n -> n ∈ dom (disk st)) /\
               (forall p, UPath p ∈ args -> is_Some (read st p))
    | Err e => e = ValueError /\ ((exists n, names st args n /\ n ∉ dom (disk st)) \/
                 exists p, UPath p ∈ args /\ read st p = None)
    end.
  Proof.
    revert acc. induction args as [|a args IH]; intros acc; cbn.
    - split; [|split].
      + intros n. split; [by left|]. intros [?|[H|(p & d & H & _)]]; [done| |]; by apply elem_of_nil in H.
      + intros n [H|(p & d & H & _)]; by apply elem_of_nil in H.
      + intros p H. by apply elem_of_nil in H.
    - assert (Hn : forall n, names st (a :: args) n <->
        (a = UName n \/ exists p d, a = UPath p /\ read st p = Some d /\ ident d = n) \/ names st args n).
      { intros n. unfold names. rewrite elem_of_cons. split.
        - intros [[<-|?]|(p & d & Hp & Hr)]; [left; by left|right; by left|].
          apply elem_of_cons in Hp as [<-|Hp]; [left; right; eauto|right; right; eauto].
        - intros [[->|(p & d & -> & Hr)]|[?|(p & d & Hp & Hr)]]; [left; by left| |left; by right|].
          + right. exists p, d. split; [left|done].
          + right. exists p, d. split; [by right|done]. }
      assert (Hstep : forall n, (forall m, names st (a :: args) m <-> m = n \/ names st args m) ->
         (forall p, a = UPath p -> is_Some (read st p)) ->
         match (if decide (n ∈ dom (disk st)) then collect_removed lower ext st args (n :: acc) else Err ValueError) with
         | Ok rm => (forall m, m ∈ rm <-> m ∈ acc \/ names st (a :: args) m) /\
               (forall m, names st (a :: args) m -> m ∈ dom (disk st)) /\
               (forall p, UPath p ∈ a :: args -> is_Some (read st p))
         | Err e => e = ValueError /\ ((exists m, names st (a :: args) m /\ m ∉ dom (disk st)) \/
                 exists p, UPath p ∈ a :: args /\ read st p = None)
         end).
      { intros n Hm Hp. case_decide as Hd.
        - specialize (IH (n :: acc)). destruct (collect_removed lower ext st args (n :: acc)) as [rm|e].
          + destruct IH as (H1 & H2 & H3). split; [|split].
            * intros m. rewrite H1, elem_of_cons, Hm. tauto.
            * intros m Hx. apply Hm in Hx as [->|?]; [done|by apply H2].
            * intros p Hx. apply elem_of_cons in Hx as [<-|?]; [by apply Hp|by apply H3].
          + destruct IH as [He [(m & Hx & Hy)|(p & Hx & Hy)]]; (split; [done|]).
            * left. exists m. rewrite Hm. auto.
            * right. exists p. split; [by right|done].
        - split; [done|]. left. exists n. rewrite Hm. auto. }
      destruct a as [n|p].
      + apply Hstep; [|done]. intros m. rewrite Hn. split.
        * intros [[[= ->]|(p & d & ? & _)]|?]; [by left|done|by right].
        * intros [->|?]; [left; by left|by right].
      + unfold get_identifier. destruct (read st p) as [d|] eqn:E.
        * apply Hstep; [|by intros q [= <-]; rewrite E; eauto]. intros m. rewrite Hn. split.
          -- intros [[?|(q & d' & [= <-] & Hq & <-)]|?]; [done| |by right].
             rewrite E in Hq. injection Hq as <-. by left.
          -- intros [->|?]; [|by right]. left. right. eauto.
        * split; [done|]. right. exists p. split; [left|done].
  Qed.

  Lemma elem_filter_installed st (rm : list N) i p :
    (i, p) ∈ filter (fun kv : N * path => kv.1 ∉ rm) (installed_list ordn st) <->
    p = PInst i /\ i ∈ dom (disk st) /\ i ∉ rm.
  Proof.
    rewrite elem_of_list_filter. unfold installed_list.
    split.
    - intros (Hi & Hin). apply elem_of_list_In, in_map_iff in Hin as (j & [= -> <-] & Hj).
      apply elem_of_list_In in Hj. rewrite Hordn in Hj.
      apply elem_of_elements in Hj. done.
    - intros (-> & Hi & Hn). split; [done|]. apply elem_of_list_In, in_map_iff. exists i. split; [done|].
      apply elem_of_list_In. rewrite Hordn. by apply elem_of_elements.
  Qed.

  (** The documents to install again after removing [rm]. *)
  Lemma remaining_docs st (rm : list N) ds :
    keyed (disk st) ->
    mapM (fun p => match read st p with Some d => Ok d | None => Err OSError end)
      (map snd (filter (fun kv : N * path => kv.1 ∉ rm) (installed_list ordn st))) = Ok ds ->
    NoDup (map ident ds) /\
    forall d, d ∈ ds <-> (disk st !! ident d = Some d /\ ident d ∉ rm).
  Proof.
    intros Hk Hm. set (L := filter _ (installed_list ordn st)) in *.
    assert (HL : forall i p, (i, p) ∈ L <-> p = PInst i /\ i ∈ dom (disk st) /\ i ∉ rm)
      by apply elem_filter_installed.
    assert (HnL : NoDup (map fst L)).
    { unfold L, installed_list.
      assert (Hx : forall l : list N, NoDup l ->
        NoDup (map fst (filter (fun kv : N * path => kv.1 ∉ rm) (map (fun i => (i, PInst i)) l)))).
      { clear. intros l Hn. induction l as [|i l IH]; [constructor|]. inversion Hn; subst.
        rewrite map_cons, filter_cons. case_decide; [|by apply IH]. rewrite map_cons. constructor; [|by apply IH].
        intros Hin. apply elem_of_list_In, in_map_iff in Hin as ([j q] & Hj & Hin).
        apply elem_of_list_In, elem_of_list_filter in Hin as [_ Hin].
        apply elem_of_list_In, in_map_iff in Hin as (k & [= -> _] & Hk). cbn in Hj. subst.
        by apply elem_of_list_In in Hk. }
      apply Hx. rewrite Hordn. apply NoDup_elements. }
    apply mapM_read in Hm.
    assert (Heq : map ident ds = map fst L).
    { clear HnL. assert (HL' : forall e, e ∈ L -> e.2 = PInst e.1).
      { intros [i p] He. by apply HL in He as [-> _]. }
      clear HL. revert ds Hm HL'. induction L as [|[i p] L IH]; intros ds Hm HL'; cbn in Hm; inversion Hm; subst; [done|].
      cbn. f_equal.
      - pose proof (HL' (i, p) ltac:(left)) as Hp. cbn in Hp. subst p. cbn in *. by apply Hk.
      - apply IH; [done|]. intros e He. apply HL'. by right. }
    split; [by rewrite Heq|]. intros d. split.
    - intros Hd. apply elem_of_list_lookup in Hd as [k Hd].
      destruct (Forall2_lookup_r _ _ _ _ _ Hm Hd) as (p & Hp & Hr).
      apply elem_of_list_lookup_2 in Hp. apply elem_of_list_In, in_map_iff in Hp as ([i q] & <- & Hin).
      apply elem_of_list_In, HL in Hin as (-> & _ & Hn). cbn in Hr. by rewrite (Hk i d Hr).
    - intros [Hd Hn]. assert (Hin : (ident d, PInst (ident d)) ∈ L).
      { apply HL. split; [done|]. split; [|done]. apply elem_of_dom. eauto. }
      assert (Hin2 : PInst (ident d) ∈ map snd L).
      { apply elem_of_list_In, in_map_iff. exists (ident d, PInst (ident d)). split; [done|].
        by apply elem_of_list_In. }
      apply elem_of_list_lookup in Hin2 as [k Hk2].
      destruct (Forall2_lookup_l _ _ _ _ _ Hm Hk2) as (d' & Hd' & Hr). cbn in Hr.
      rewrite Hd in Hr. injection Hr as <-. by eapply elem_of_list_lookup_2.
  Qed.

  Lemma fold_store_lookup l : forall (m : gmap N doc),
    NoDup (map ident l) -> forall i,
    foldl (fun m d => <[ident d := stored d]> m) m l !! i =
    match list_find (fun d => ident d = i) l with Some (_, d) => Some (stored d) | None => m !! i end.
  Proof.
    induction l as [|d l IH]; intros m Hn i; cbn; [done|]. inversion Hn as [|? ? Hni Hn']; subst.
    rewrite IH by done. case_decide as Hd.
    - destruct (list_find _ l) as [[k d']|] eqn:E.
      + exfalso. apply list_find_Some in E as (Hl & Hid & _). apply Hni. rewrite Hd, <- Hid.
        apply elem_of_list_In, in_map. apply elem_of_list_In. by eapply elem_of_list_lookup_2.
      + rewrite Hd. by rewrite lookup_insert.
    - destruct (list_find _ l) as [[k d']|] eqn:E; cbn; [done|].
      by rewrite lookup_insert_ne.
  Qed.

  Lemma find_by_ident l i d :
    NoDup (map ident l) ->
    (exists k, list_find (fun d => ident d = i) l = Some (k, d)) <-> d ∈ l /\ ident d = i.
  Proof.
    intros Hn. split.
    - intros [k H]. apply list_find_Some in H as (Hl & Hi & _). split; [|done].
      by eapply elem_of_list_lookup_2.
    - intros [Hd Hi]. destruct (list_find_elem_of (fun d => ident d = i) l d Hd Hi) as [[k d'] E].
      rewrite E. apply list_find_Some in E as (Hl & Hi' & _). exists k. f_equal. f_equal.
      apply elem_of_list_lookup_2 in Hl.
      clear -Hn Hd Hl Hi Hi'. induction l as [|x l IH]; [by apply elem_of_nil in Hd|].
      inversion Hn as [|? ? Hni Hn']; subst.
      assert (Hmem : forall y, y ∈ l -> ident y ∈ map ident l).
      { intros y Hy. apply elem_of_list_In, in_map, elem_of_list_In. done. }
      apply elem_of_cons in Hd as [->|Hd], Hl as [->|Hl]; [done| | |by apply IH].
      + exfalso. apply Hni. rewrite <- Hi'. by apply Hmem.
      + exfalso. apply Hni. rewrite Hi'. by apply Hmem.
  Qed.

  (** A successful uninstall removes exactly the named packages, and the
      registry holds exactly what remains. *)
  Theorem C39_uninstall_exact st args st' :
    as_stored (disk st) -> uninstall st args = (st', None) ->
    (forall n, names st args n -> n ∈ dom (disk st)) /\
    (forall i d, disk st' !! i = Some d <-> disk st !! i = Some d /\ ~ names st args i) /\
    registry_matches st'.
  Proof.
    intros [Hk Hx] H. unfold Install.uninstall, remaining_packages in H.
    pose proof (collect_spec st args []) as Hc.
    destruct (collect_removed lower ext st args []) as [rm|e]; [|done].
    destruct Hc as (Hrm & Hdom & _). split; [done|]. cbn [rmap] in H. unfold install_core in H.
    unfold sort_for_installation in H.
    destruct (mapM _ _) as [ds|e] eqn:Em; [|done].
    apply remaining_docs in Em as [Hnd Hds]; [|done].
    destruct (sort_docs ds ∅) as [l|e] eqn:Es; [|done].
    apply C38_order_sound in Es as [Hp _]; [|done].
    destruct (parse_all_spec has_dot {[cuba_content]} l) as [[Hpa _]|(m' & e & Hpa & _)];
      rewrite Hpa in H; [|done].
    destruct (store_all lower ∅ l) as [dk e] eqn:Est. injection H as <- ->.
    apply store_all_spec in Est as (dn & td & Hl & Hdk & Htd & _). rewrite (Htd eq_refl), app_nil_r in Hl. subst dn.
    assert (Hnl : NoDup (map ident l)) by (by rewrite Hp).
    assert (Hlook : forall i d, dk !! i = Some d <-> disk st !! i = Some d /\ ~ names st args i).
    { intros i d. rewrite Hdk, fold_store_lookup by done.
      assert (Hnn : i ∉ rm <-> ~ names st args i) by (rewrite Hrm, elem_of_nil; tauto). rewrite <- Hnn.
      destruct (list_find (fun d0 => ident d0 = i) l) as [[k d']|] eqn:Ef.
      - assert (Hd' : d' ∈ l /\ ident d' = i) by (apply find_by_ident; eauto).
        destruct Hd' as [Hd' Hi]. rewrite Hp, Hds, Hi in Hd'. destruct Hd' as [Hd' Hnr].
        rewrite (Hx i d' Hd'), Hd'. naive_solver.
      - rewrite lookup_empty. split; [done|]. intros [Hd Hnr].
        assert (Hex : exists k, list_find (fun d0 => ident d0 = i) l = Some (k, d)).
        { apply find_by_ident; [done|]. pose proof (Hk i d Hd) as Hid. split; [|done].
          rewrite Hp, Hds, Hid. done. }
        destruct Hex as [k Hex]. congruence. }
    split; [exact Hlook|]. intros c. cbn. rewrite elem_of_union, elem_of_singleton, elem_of_list_to_set.
    rewrite elem_of_list_In, in_map_iff. split.
    - intros [?|(d & <- & Hd)]; [by left|right]. exists (ident d), d. split; [|done]. apply Hlook.
      apply elem_of_list_In in Hd. rewrite Hp in Hd. apply Hds in Hd as [Hd Hn].
      split; [done|]. intros Hna. apply Hn, Hrm. by right.
    - intros [?|(i & d & Hd & <-)]; [by left|right]. exists d. split; [done|].
      apply Hlook in Hd as [Hd Hn]. apply elem_of_list_In. rewrite Hp. apply Hds.
      rewrite (Hk i d Hd). split; [done|]. rewrite Hrm, elem_of_nil. tauto.
  Qed.

  (** Uninstalling is refused, and nothing is removed, if a package that stays
      requires one that is removed. *)
  Theorem C39_uninstall_refused_if_required st args i d r :
    as_stored (disk st) ->
    (forall n, names st args n -> n ∈ dom (disk st)) -> (forall p, UPath p ∈ args -> is_Some (read st p)) ->
    disk st !! i = Some d -> ~ names st args i -> r ∈ reqs d -> names st args r ->
    exists st', uninstall st args = (st', Some RuntimeError) /\ disk st' = disk st.
  Proof.
    intros [Hk Hx] Hall Hpaths Hd Hi Hr Hrn. unfold Install.uninstall, remaining_packages.
    pose proof (collect_spec st args []) as Hc.
    destruct (collect_removed lower ext st args []) as [rm|e].
    2:{ destruct Hc as [_ [(n & Hn1 & Hn2)|(p & Hp & Hrd)]]; [by destruct Hn2; apply Hall|].
        destruct (Hpaths p Hp) as [? Hs]. congruence. }
    destruct Hc as (Hrm & _ & _). cbn [rmap]. unfold install_core, sort_for_installation.
    destruct (mapM _ _) as [ds|e] eqn:Em.
    - apply remaining_docs in Em as [Hnd Hds]; [|done].
      destruct (sort_docs ds ∅) as [l|e] eqn:Es.
      + exfalso. apply C38_order_sound in Es as [Hp Hq]; [|done].
        assert (Hdl : d ∈ l).
        { rewrite Hp. apply Hds. rewrite (Hk i d Hd). split; [done|]. rewrite Hrm, elem_of_nil. tauto. }
        apply elem_of_list_split in Hdl as (pre & post & ->).
        destruct (Hq pre d post eq_refl r Hr) as [Hin|(d' & Hd' & Hid)]; [by apply elem_of_empty in Hin|].
        assert (Hin : d' ∈ ds). { rewrite <- Hp. apply elem_of_app. by left. }
        apply Hds in Hin as [_ Hin]. apply Hin. rewrite Hid, Hrm. by right.
      + destruct (C38_fails_iff_impossible ∅ ds Hnd) as [_ He]. rewrite (He e Es). by eexists.
    - exfalso. assert (Hrd : forall p, p ∈ map snd (filter (fun kv : N * path => kv.1 ∉ rm) (installed_list ordn st)) -> is_Some (read st p)).
      { intros p Hp. apply elem_of_list_In, in_map_iff in Hp as ([j q] & <- & Hin).
        apply elem_of_list_In, elem_filter_installed in Hin as (-> & Hj & _). cbn.
        by apply elem_of_dom in Hj. }
      clear -Em Hrd. induction (map snd _) as [|p l IH]; cbn in Em; [done|].
      destruct (Hrd p ltac:(left)) as [d Hd]. rewrite Hd in Em.
      destruct (mapM _ l); [done|]. apply IH; [done|]. intros q Hq. apply Hrd. by right.
  Qed.

  Lemma skip_installed_spec st ps : forall result res,
    NoDup result -> skip_installed lower ext st ps result = Ok res ->
    NoDup res /\
    (forall p, p ∈ ps -> exists d, read st p = Some d) /\
    (forall q, q ∈ res <-> q ∈ result /\
       (q ∈ ps -> forall d, read st q = Some d -> ident d ∉ dom (disk st))).
  Proof.
    induction ps as [|p ps IH]; intros result res Hn H; cbn in H.
    - apply Ok_inj in H as <-. split; [done|]. split; [intros p Hp; by apply elem_of_nil in Hp|].
      intros q. split; [|tauto]. intros Hq. split; [done|]. intros Hq'. by apply elem_of_nil in Hq'.
    - unfold get_identifier in H. destruct (read st p) as [d|] eqn:E; [|done].
      case_decide as Hd.
      + case_decide as Hp; [|done]. apply IH in H as (Hn' & Hrd & Hq); [|by apply NoDup_filter].
        split; [done|]. split.
        { intros p' Hp'. apply elem_of_cons in Hp' as [->|Hp']; [eauto|by apply Hrd]. }
        intros q. rewrite Hq, elem_of_list_filter, elem_of_cons. split.
        * intros ((Hne & Hin) & Himp). split; [done|]. intros [->|Hin']; [done|by apply Himp].
        * intros (Hin & Himp). split.
          -- split; [|done]. intros ->. by apply (Himp (or_introl eq_refl) d).
          -- intros Hps. apply Himp. by right.
      + apply IH in H as (Hn' & Hrd & Hq); [|done]. split; [done|]. split.
        { intros p' Hp'. apply elem_of_cons in Hp' as [->|Hp']; [eauto|by apply Hrd]. }
        intros q. rewrite Hq, elem_of_cons. split.
        * intros (Hin & Himp). split; [done|]. intros [->|Hin']; [|by apply Himp].
          intros d' Hd'. rewrite E in Hd'. by injection Hd' as <-.
        * intros (Hin & Himp). split; [done|]. intros Hps. apply Himp. by right.
  Qed.

  (** A successful install: everything given is installed, what was installed
      stays, nothing else appears; the registry matches. *)
  Theorem C39_install_exact st files st' :
    install st files = (st', None) ->
    (forall p, p ∈ files -> exists d, read st p = Some d /\ ident d ∈ dom (disk st')) /\
    (forall i d, disk st !! i = Some d -> disk st' !! i = Some d) /\
    (forall i d, disk st' !! i = Some d -> disk st !! i = Some d \/
       exists p d0, p ∈ files /\ read st p = Some d0 /\ ident d0 = i /\ d = stored d0) /\
    (registry_matches st -> registry_matches st').
  Proof.
    intros H. unfold Install.install, new_packages in H.
    destruct (skip_installed lower ext st files (remove_dups files)) as [res|e] eqn:Esk; [|done].
    apply skip_installed_spec in Esk as (_ & Hrd & Hres); [|apply NoDup_remove_dups].
    cbn [rmap] in H. unfold install_core, sort_for_installation in H.
    destruct (mapM _ _) as [ds|e] eqn:Em; [|done]. apply mapM_read in Em.
    assert (Hds : forall d, d ∈ ds <-> exists p, p ∈ res /\ read st p = Some d).
    { intros d. split.
      - intros Hd. apply elem_of_list_lookup in Hd as [k Hd].
        destruct (Forall2_lookup_r _ _ _ _ _ Em Hd) as (p & Hp & Hr).
        apply elem_of_list_lookup_2 in Hp. rewrite Hord in Hp. eauto.
      - intros (p & Hp & Hr). rewrite <- Hord in Hp. apply elem_of_list_lookup in Hp as [k Hp].
        destruct (Forall2_lookup_l _ _ _ _ _ Em Hp) as (d' & Hd' & Hr').
        rewrite Hr in Hr'. injection Hr' as <-. by eapply elem_of_list_lookup_2. }
    destruct (sort_docs ds (dom (disk st))) as [l|e] eqn:Es; [|done].
    apply C38_same_identifier in Es as (Hnl & Hsub & Hall & _).
    destruct (parse_all_spec has_dot (mem st) l) as [[Hpa _]|(m' & e & Hpa & _)];
      rewrite Hpa in H; [|done].
    destruct (store_all lower (disk st) l) as [dk e] eqn:Est. injection H as <- ->.
    apply store_all_spec in Est as (dn & td & Hl & Hdk & Htd & _). rewrite (Htd eq_refl), app_nil_r in Hl. subst dn.
    assert (Hfile : forall d, d ∈ l -> exists p, p ∈ files /\ read st p = Some d /\ ident d ∉ dom (disk st)).
    { intros d Hd. apply Hsub, Hds in Hd as (p & Hp & Hr). apply Hres in Hp as [Hp Hi].
      rewrite elem_of_remove_dups in Hp. exists p. split; [done|]. split; [done|]. by apply Hi. }
    assert (Hlook : forall i d, dk !! i = Some d <-> disk st !! i = Some d \/
              exists d0, d0 ∈ l /\ ident d0 = i /\ d = stored d0).
    { intros i d. rewrite Hdk, fold_store_lookup by done.
      destruct (list_find (fun d0 => ident d0 = i) l) as [[k d']|] eqn:Ef.
      - assert (Hd' : d' ∈ l /\ ident d' = i) by (apply find_by_ident; eauto).
        destruct Hd' as [Hd' Hi]. destruct (Hfile d' Hd') as (_ & _ & _ & Hni). split.
        + intros [= <-]. right. eauto.
        + intros [Hd|(d0 & Hd0 & Hi0 & ->)].
          * exfalso. apply Hni. rewrite Hi. apply elem_of_dom. eauto.
          * assert (Hex : exists k, list_find (fun d0 => ident d0 = i) l = Some (k, d0))
              by (by apply find_by_ident). destruct Hex as [k' Hex]. rewrite Ef in Hex. by injection Hex as _ <-.
      - split; [by left|]. intros [Hd|(d0 & Hd0 & Hi0 & ->)]; [done|].
        assert (Hex : exists k, list_find (fun d0 => ident d0 = i) l = Some (k, d0))
          by (by apply find_by_ident). destruct Hex as [k' Hex]. congruence. }
    cbn [disk]. split; [|split; [|split]].
    - intros p Hp. destruct (Hrd p Hp) as [d Hd]. exists d. split; [done|]. apply elem_of_dom.
      destruct (decide (ident d ∈ dom (disk st))) as [Hin|Hni].
      + apply elem_of_dom in Hin as [d' Hd']. exists d'. apply Hlook. by left.
      + assert (Hdd : d ∈ ds).
        { apply Hds. exists p. split; [|done]. apply Hres. rewrite elem_of_remove_dups. split; [done|].
          intros _ d'. rewrite Hd. by intros [= <-]. }
        destruct (Hall d Hdd) as (d' & Hd' & Hi). exists (stored d'). apply Hlook. right. eauto.
    - intros i d Hd. apply Hlook. by left.
    - intros i d Hd. apply Hlook in Hd as [Hd|(d0 & Hd0 & Hi & ->)]; [by left|right].
      destruct (Hfile d0 Hd0) as (p & Hp & Hr & _). exists p, d0. done.
    - intros Hm c. cbn [mem disk]. rewrite elem_of_union, (Hm c), elem_of_list_to_set.
      rewrite (elem_of_list_In (map d_content l)), in_map_iff.
      assert (Hcs : forall d, d_content (stored d) = d_content d)
        by (intros d; unfold stored; by destruct (d_rdf d)). split.
      + intros [[?|(i & d & Hd & <-)]|(d & <- & Hd)]; [by left| |].
        * right. exists i, d. split; [|done]. apply Hlook. by left.
        * right. exists (ident d), (stored d). split; [|done]. apply Hlook. right.
          apply elem_of_list_In in Hd. eauto.
      + intros [?|(i & d & Hd & <-)]; [left; by left|].
        apply Hlook in Hd as [Hd|(d0 & Hd0 & Hi & ->)].
        * left. right. eauto.
        * right. exists d0. split; [done|]. by apply elem_of_list_In.
  Qed.

  Lemma replace_all_spec st ps : forall D D',
    NoDup D.*1 -> replace_all lower ext st ps D = Ok D' ->
    NoDup D'.*1 /\ (forall p, p ∈ ps -> exists d, read st p = Some d) /\
    forall k q, (k, q) ∈ D' ->
      ((k, q) ∈ D /\ forall p d, p ∈ ps -> read st p = Some d -> ident d <> k) \/
      (q ∈ ps /\ exists d, read st q = Some d /\ ident d = k).
  Proof.
    induction ps as [|p ps IH]; intros D D' Hn H; cbn in H.
    - apply Ok_inj in H as <-. split; [done|]. split; [intros p Hp; by apply elem_of_nil in Hp|].
      intros k q Hin. left. split; [done|]. intros p d Hp. by apply elem_of_nil in Hp.
    - unfold get_identifier in H. destruct (read st p) as [d|] eqn:E; [|done].
      apply IH in H as (Hn' & Hrd & Hq); [|by apply dict_set_nodup].
      split; [done|]. split.
      { intros p' Hp'. apply elem_of_cons in Hp' as [->|Hp']; [eauto|by apply Hrd]. }
      intros k q Hin. destruct (Hq k q Hin) as [[Hd Hno]|[Hp Hx]].
      + apply elem_dict_set in Hd as [[Hd Hne]|[= -> ->]]; [|right; split; [left|by exists d]|done].
        left. split; [done|]. intros p' d' Hp' Hr. apply elem_of_cons in Hp' as [->|Hp'].
        * rewrite E in Hr. injection Hr as <-. cbn in Hne. congruence.
        * by apply (Hno p').
      + right. split; [by right|done].
  Qed.

  Lemma replace_all_keys st ps : forall D D' k,
    replace_all lower ext st ps D = Ok D' -> k ∈ D.*1 \/ (exists p d, p ∈ ps /\ read st p = Some d /\ ident d = k) ->
    k ∈ D'.*1.
  Proof.
    induction ps as [|p ps IH]; intros D D' k H Hk; cbn in H.
    - apply Ok_inj in H as <-. destruct Hk as [?|(p & d & Hp & _)]; [done|by apply elem_of_nil in Hp].
    - unfold get_identifier in H. destruct (read st p) as [d|] eqn:E; [|done].
      eapply IH; [done|]. rewrite dict_set_keys. destruct Hk as [?|(p' & d' & Hp & Hr & Hi)]; [left; by left|].
      apply elem_of_cons in Hp as [->|Hp]; [|right; eauto]. rewrite E in Hr. injection Hr as ->. left. by right.
  Qed.

  (** A successful install_overwrite: named packages come from the given files,
      all others are as before. *)
  Theorem C39_overwrite_exact st files st' :
    as_stored (disk st) -> install_overwrite st files = (st', None) ->
    (forall i, (forall p d, p ∈ files -> read st p = Some d -> ident d <> i) -> disk st' !! i = disk st !! i) /\
    (forall p, p ∈ files -> exists d p' d', read st p = Some d /\ p' ∈ files /\ read st p' = Some d' /\
       ident d' = ident d /\ disk st' !! ident d = Some (stored d')) /\
    registry_matches st'.
  Proof.
    intros [Hk Hx] H. unfold Install.install_overwrite, replaced_packages in H.
    destruct (replace_all lower ext st files (installed_list ordn st)) as [D|e] eqn:Er; [|done].
    pose proof (fun k => replace_all_keys st files _ D k Er) as Hkeys.
    assert (Hil : forall i p, (i, p) ∈ installed_list ordn st <-> p = PInst i /\ i ∈ dom (disk st)).
    { intros i p. pose proof (elem_filter_installed st [] i p) as Hf.
      rewrite elem_of_list_filter in Hf. cbn in Hf.
      assert (i ∉ @nil N) by (by intros ?%elem_of_nil). tauto. }
    assert (Hnil : NoDup (installed_list ordn st).*1).
    { unfold installed_list.
      assert (Hmm : forall l : list N, (map (fun i => (i, PInst i)) l).*1 = l).
      { clear. induction l as [|x l IH]; [done|]. cbn. csimpl. f_equal. apply IH. }
      rewrite Hmm, Hordn. apply NoDup_elements. }
    apply replace_all_spec in Er as (HnD & Hrd & HD); [|done].
    cbn [rmap] in H. unfold install_core, sort_for_installation in H.
    destruct (mapM _ _) as [ds|e] eqn:Em; [|done]. apply mapM_read in Em.
    assert (HDi : forall k q, (k, q) ∈ D -> exists d, read st q = Some d /\ ident d = k).
    { intros k q Hin. destruct (HD k q Hin) as [[Hi _]|[_ ?]]; [|done].
      apply Hil in Hi as [-> Hi]. apply elem_of_dom in Hi as [d Hd]. exists d. split; [done|]. by apply Hk. }
    assert (Heq : map ident ds = D.*1).
    { clear -Em HDi. revert ds Em. induction D as [|[k q] D IH]; intros ds Em; cbn in Em; inversion Em; subst; [done|].
      cbn. csimpl. f_equal.
      - destruct (HDi k q ltac:(left)) as (d & Hd & Hi). congruence.
      - apply IH; [|done]. intros k' q' Hin. apply HDi. by right. }
    assert (Hnds : NoDup (map ident ds)) by (by rewrite Heq).
    assert (Hds : forall d, d ∈ ds <-> exists q, (ident d, q) ∈ D /\ read st q = Some d).
    { intros d. split.
      - intros Hd. apply elem_of_list_lookup in Hd as [j Hd].
        destruct (Forall2_lookup_r _ _ _ _ _ Em Hd) as (p & Hp & Hr).
        apply elem_of_list_lookup_2 in Hp. apply elem_of_list_In, in_map_iff in Hp as ([k q] & <- & Hin).
        apply elem_of_list_In in Hin. destruct (HDi k q Hin) as (d' & Hd' & Hi). cbn in Hr.
        exists q. rewrite Hd' in Hr. injection Hr as ->. by rewrite Hi.
      - intros (q & Hq & Hr). assert (Hin : q ∈ map snd D).
        { apply elem_of_list_In, in_map_iff. exists (ident d, q). split; [done|by apply elem_of_list_In]. }
        apply elem_of_list_lookup in Hin as [j Hj].
        destruct (Forall2_lookup_l _ _ _ _ _ Em Hj) as (d' & Hd' & Hr').
        rewrite Hr in Hr'. injection Hr' as <-. by eapply elem_of_list_lookup_2. }
    destruct (sort_docs ds ∅) as [l|e] eqn:Es; [|done].
    apply C38_order_sound in Es as [Hp _]; [|done].
    destruct (parse_all_spec has_dot {[cuba_content]} l) as [[Hpa _]|(m' & e & Hpa & _)];
      rewrite Hpa in H; [|done].
    destruct (store_all lower ∅ l) as [dk e] eqn:Est. injection H as <- ->.
    apply store_all_spec in Est as (dn & td & Hl & Hdk & Htd & _). rewrite (Htd eq_refl), app_nil_r in Hl. subst dn.
    assert (Hnl : NoDup (map ident l)) by (by rewrite Hp).
    assert (Hlook : forall i d, dk !! i = Some d <-> exists d0, d0 ∈ ds /\ ident d0 = i /\ d = stored d0).
    { intros i d. rewrite Hdk, fold_store_lookup by done.
      destruct (list_find (fun d0 => ident d0 = i) l) as [[k d']|] eqn:Ef.
      - assert (Hd' : d' ∈ l /\ ident d' = i) by (apply find_by_ident; eauto). split.
        + intros [= <-]. exists d'. rewrite <- Hp. destruct Hd' as [? ?]. done.
        + intros (d0 & Hd0 & Hi0 & ->). rewrite <- Hp in Hd0.
          assert (Hex : exists k, list_find (fun d0 => ident d0 = i) l = Some (k, d0))
              by (by apply find_by_ident). destruct Hex as [k' Hex]. rewrite Ef in Hex. by injection Hex as _ <-.
      - rewrite lookup_empty. split; [done|]. intros (d0 & Hd0 & Hi0 & ->). rewrite <- Hp in Hd0.
        assert (Hex : exists k, list_find (fun d0 => ident d0 = i) l = Some (k, d0))
          by (by apply find_by_ident). destruct Hex as [k' Hex]. congruence. }
    cbn [disk mem]. split; [|split].
    - intros i Hno. destruct (disk st !! i) as [d|] eqn:Ei.
      + apply Hlook. exists d. assert (Hki : i ∈ D.*1).
        { apply Hkeys. left. apply elem_of_list_fmap. exists (i, PInst i). split; [done|].
          apply Hil. split; [done|]. apply elem_of_dom. eauto. }
        apply elem_of_list_fmap in Hki as ([k q] & -> & Hin). cbn in *.
        destruct (HD k q Hin) as [[Hi _]|[Hq (d' & Hr & Hid)]]; [|by destruct (Hno q d' Hq Hr)].
        apply Hil in Hi as [-> _]. pose proof (Hk k d Ei) as Hid. split; [|split; [done|]].
        * apply Hds. exists (PInst k). by rewrite Hid.
        * symmetry. by apply Hx in Ei.
      + destruct (dk !! i) as [d|] eqn:Ed; [|done]. exfalso.
        apply Hlook in Ed as (d0 & Hd0 & Hi & _). apply Hds in Hd0 as (q & Hq & Hr). rewrite Hi in Hq.
        destruct (HD i q Hq) as [[Hin _]|[Hqf _]].
        * apply Hil in Hin as [_ Hin]. apply elem_of_dom in Hin as [? ?]. congruence.
        * by apply (Hno q d0).
    - intros p Hpf. destruct (Hrd p Hpf) as [d Hd]. exists d.
      assert (Hki : ident d ∈ D.*1). { apply Hkeys. right. eauto. }
      apply elem_of_list_fmap in Hki as ([k q] & Hki & Hin). cbn in Hki. subst k.
      destruct (HD _ q Hin) as [[_ Hno]|[Hq (d' & Hr & Hid)]]; [by destruct (Hno p d Hpf Hd)|].
      exists q, d'. split; [done|]. split; [done|]. split; [done|]. split; [done|].
      apply Hlook. exists d'. split; [|done]. apply Hds. exists q. by rewrite Hid.
    - intros c. cbn [mem disk]. rewrite elem_of_union, elem_of_singleton, elem_of_list_to_set.
      assert (Hcs : forall d, d_content (stored d) = d_content d)
        by (intros d; unfold stored; by destruct (d_rdf d)).
      rewrite (elem_of_list_In (map d_content l)), in_map_iff. split.
      + intros [?|(d & <- & Hd)]; [by left|right]. exists (ident d), (stored d). split; [|done].
        apply Hlook. exists d. apply elem_of_list_In in Hd. by rewrite <- Hp.
      + intros [?|(i & d & Hd & <-)]; [by left|right]. apply Hlook in Hd as (d0 & Hd0 & _ & ->).
        exists d0. split; [done|]. apply elem_of_list_In. by rewrite Hp.
  Qed.

  (** Uninstalling succeeds if all names are installed, the packages that stay
      can be ordered, and are readable and named in lower case. *)
  Theorem C39_uninstall_succeeds st args :
    as_stored (disk st) ->
    (forall n, names st args n -> n ∈ dom (disk st)) -> (forall p, UPath p ∈ args -> is_Some (read st p)) ->
    (forall i d, disk st !! i = Some d -> ~ names st args i ->
       parse_error has_dot d = None /\ (d_rdf d = true -> ident d = d_id d)) ->
    (exists l, requirements_first ∅ l /\ NoDup (map ident l) /\
       forall d, d ∈ l <-> disk st !! ident d = Some d /\ ~ names st args (ident d)) ->
    exists st', uninstall st args = (st', None).
  Proof.
    intros [Hk Hx] Hall Hpaths Hgood (lo & Hlo & Hnlo & Hlod). unfold Install.uninstall, remaining_packages.
    pose proof (collect_spec st args []) as Hc.
    destruct (collect_removed lower ext st args []) as [rm|e].
    2:{ destruct Hc as [_ [(n & Hn1 & Hn2)|(p & Hp & Hrd)]]; [by destruct Hn2; apply Hall|].
        destruct (Hpaths p Hp) as [? Hs]. congruence. }
    destruct Hc as (Hrm & _ & _). cbn [rmap]. unfold install_core, sort_for_installation.
    destruct (mapM _ _) as [ds|e] eqn:Em.
    - apply remaining_docs in Em as [Hnd Hds]; [|done].
      assert (Hpl : lo ≡ₚ ds).
      { apply NoDup_Permutation.
        - by eapply NoDup_fmap_1.
        - by eapply NoDup_fmap_1.
        - intros d. rewrite Hlod, Hds, Hrm, elem_of_nil. tauto. }
      destruct (sort_docs ds ∅) as [l|e] eqn:Es.
      + apply C38_order_sound in Es as [Hp _]; [|done].
        assert (Hgl : forall d, d ∈ l -> parse_error has_dot d = None /\ (d_rdf d = true -> ident d = d_id d)).
        { intros d Hd. rewrite Hp in Hd. apply Hds in Hd as [Hd Hn]. apply (Hgood _ _ Hd).
          intros Hna. apply Hn, Hrm. by right. }
        destruct (parse_all_spec has_dot {[cuba_content]} l) as [[Hpa _]|(m' & e & _ & d & Hd & He)].
        2:{ exfalso. destruct (Hgl d Hd). congruence. }
        rewrite Hpa. destruct (store_all lower ∅ l) as [dk e] eqn:Est.
        apply store_all_spec in Est as (dn & td & Hl & _ & _ & Herr). destruct e as [e|]; [|by eexists].
        exfalso. destruct Herr as (d & t & -> & Hrdf & Hid & _); [done|]. apply Hid.
        apply Hgl; [|done]. rewrite Hl. apply elem_of_app. right. left.
      + exfalso. destruct (C38_fails_iff_impossible ∅ ds Hnd) as [Hiff He].
        rewrite (He e Es) in Es. by apply (proj1 Hiff Es lo).
    - exfalso. assert (Hrd : forall p, p ∈ map snd (filter (fun kv : N * path => kv.1 ∉ rm) (installed_list ordn st)) -> is_Some (read st p)).
      { intros p Hp. apply elem_of_list_In, in_map_iff in Hp as ([j q] & <- & Hin).
        apply elem_of_list_In, elem_filter_installed in Hin as (-> & Hj & _). cbn.
        by apply elem_of_dom in Hj. }
      clear -Em Hrd. induction (map snd _) as [|p l IH]; cbn in Em; [done|].
      destruct (Hrd p ltac:(left)) as [d Hd]. rewrite Hd in Em.
      destruct (mapM _ l); [done|]. apply IH; [done|]. intros q Hq. apply Hrd. by right.
  Qed.
End Theorems.

(** ** Examples: names below 1000 are lower case; "n + 1000" is n in upper case *)
Definition exLower (n : N) : N := if n <? 1000 then n else n mod 1000.
Definition exDot (n : N) : bool := false.
Definition city : doc := Doc false 1 None 0 0 11 true.
Definition parser_test : doc := Doc false 2 (Some [1]) 0 0 12 true.
Definition owl_ttl : doc := Doc true 3 None 1 1 13 true.       (* format: ttl *)
Definition owl_upper : doc := Doc true 1004 None 0 0 14 true.  (* identifier with capitals *)
Definition owl_req : doc := Doc true 5 (Some [1]) 0 0 15 true. (* OWL package with requirements *)
Definition case_req : doc := Doc false 6 (Some [1001]) 0 0 16 true.
Definition city' : doc := Doc false 1001 None 0 0 17 true.
Definition cyc1 : doc := Doc false 7 (Some [8]) 0 0 18 true.
Definition cyc2 : doc := Doc false 8 (Some [7]) 0 0 19 true.
Definition exExt (n : N) : option doc :=
  nth (N.to_nat n) [None; Some city; Some parser_test; Some owl_ttl; Some owl_upper; Some owl_req;
                    Some case_req; Some cyc1; Some cyc2; Some city'] None.
Definition exInstall := install exLower exDot exExt (fun l => l).
Definition exUninstall := uninstall exLower exDot exExt (fun l => l).
Definition exOverwrite := install_overwrite exLower exDot exExt (fun l => l).
Definition exEmpty : inst := Inst ∅ {[cuba_content]}.
Definition exSt : inst := fst (exInstall exEmpty [PExt 2; PExt 1]).

Example C38_example : sort_docs exLower [parser_test; city] ∅ = Ok [city; parser_test].
Proof. by vm_compute. Qed.
Example C38_example_cycle :
  sort_docs exLower [cyc1; city; cyc2] ∅ = Err RuntimeError /\
  sort_docs exLower [cyc1; cyc2] {[8]} = Ok [cyc1; cyc2].
Proof. by vm_compute. Qed.
Example C38_example_sound : [city; parser_test] ≡ₚ [parser_test; city] /\
  requirements_first exLower ∅ [city; parser_test].
Proof.
  apply (C38_order_sound exLower); [|by vm_compute].
  cbn. apply NoDup_cons. split; [|apply NoDup_singleton]. rewrite elem_of_list_singleton. done.
Qed.

Lemma exSt_disk : disk exSt = {[ 1 := city; 2 := parser_test ]}.
Proof. refine (proj1 (bool_decide_eq_true _) _). by vm_compute. Qed.
Lemma exSt_stored : as_stored exLower (disk exSt).
Proof.
  rewrite exSt_disk. split.
  - intros i d H. apply lookup_insert_Some in H as [[<- <-]|[_ H]]; [done|].
    apply lookup_singleton_Some in H as [<- <-]. done.
  - intros i d H. apply lookup_insert_Some in H as [[<- <-]|[_ H]]; [done|].
    apply lookup_singleton_Some in H as [<- <-]. done.
Qed.
Example C39_example_uninstall :
  exists st', exUninstall exSt [UName 2] = (st', None) /\
    (forall i d, disk st' !! i = Some d <-> disk exSt !! i = Some d /\ ~ names exLower exExt exSt [UName 2] i).
Proof.
  assert (He : snd (exUninstall exSt [UName 2]) = None) by by vm_compute.
  destruct (exUninstall exSt [UName 2]) as [st' e] eqn:E. cbn in He. subst e. exists st'. split; [done|].
  assert (Hp : forall l : list N, id l ≡ₚ l) by done.
  exact (proj1 (proj2 (C39_uninstall_exact exLower exDot exExt (fun l => l) Hp exSt [UName 2] st' exSt_stored E))).
Qed.
Example C39_example_refused :
  exists st', exUninstall exSt [UName 1] = (st', Some RuntimeError) /\ disk st' = disk exSt.
Proof.
  assert (Hp : forall l : list N, id l ≡ₚ l) by done.
  apply (C39_uninstall_refused_if_required exLower exDot exExt (fun l => l) Hp exSt [UName 1] 2 parser_test 1).
  - apply exSt_stored.
  - intros n [H|(p & d & H & _)]; apply elem_of_list_singleton in H; [injection H as ->|done].
    rewrite exSt_disk. apply elem_of_dom. by eexists.
  - intros p H. by apply elem_of_list_singleton in H.
  - by rewrite exSt_disk.
  - intros [H|(p & d & H & _)]; by apply elem_of_list_singleton in H.
  - by left.
  - left. by left.
Qed.

(** Refuted: the names in "requirements" are not put in lower case, but the
    identifiers are: a requirement written with a capital is never met, also when
    the identifier is written in the same way. *)
Theorem C38_refuted_case :
  exists a b, reqs a = [d_id b] /\ sort_docs exLower [a; b] ∅ = Err RuntimeError.
Proof. exists case_req, city'. split; [done|]. by vm_compute. Qed.

(** Refuted: an OWL package with requirements can never be installed, even if
    they are met. *)
Theorem C38_refuted_owl_requirements :
  exists d, d_rdf d = true /\ d_valid d = true /\ reqs d = [1] /\ 1 ∈ dom (disk exSt) /\
    exExt 5 = Some d /\ snd (exInstall exSt [PExt 5]) = Some TypeError.
Proof.
  exists owl_req. split; [done|]. split; [done|]. split; [done|]. split.
  - rewrite exSt_disk. apply elem_of_dom. by eexists.
  - split; [done|]. by vm_compute.
Qed.

(** Refuted: a failing uninstall (here: a name that is not installed) has
    already emptied the registry in memory; the packages on disk are kept. *)
Theorem C39_refuted_registry_lost :
  exists st st', registry_matches st /\ exUninstall st [UName 99] = (st', Some ValueError) /\
    disk st' = disk st /\ ~ registry_matches st' /\ mem st' = {[ cuba_content ]}.
Proof.
  assert (Hp : forall l : list path, id l ≡ₚ l) by done.
  assert (He : snd (exInstall exEmpty [PExt 2; PExt 1]) = None) by by vm_compute.
  exists exSt, (Inst (disk exSt) {[cuba_content]}). split; [|split; [|split; [done|split; [|done]]]].
  - unfold exSt. destruct (exInstall exEmpty [PExt 2; PExt 1]) as [s e] eqn:E. cbn in He |- *. subst e.
    apply (C39_install_exact exLower exDot exExt (fun l => l) Hp exEmpty _ s E).
    intros c. cbn. rewrite elem_of_singleton. split; [by left|]. intros [?|(i & d & H & _)]; [done|].
    by rewrite lookup_empty in H.
  - unfold exUninstall, uninstall, remaining_packages. cbn [collect_removed].
    rewrite decide_False; [done|]. rewrite exSt_disk. intros H. apply elem_of_dom in H as [? H]. done.
  - intros H. assert (Hin : 11 ∈ ({[cuba_content]} : gset N)).
    { apply H. right. exists 1, city. split; [|done]. cbn [disk]. by rewrite exSt_disk. }
    apply elem_of_singleton in Hin. discriminate.
Qed.

(** Refuted: overwriting with an OWL package whose identifier has capitals fails
    after the installation directory was emptied: installed packages are lost. *)
Theorem C39_refuted_disk_lost :
  exists st', snd (exOverwrite exSt [PExt 4]) = Some KeyError /\ st' = fst (exOverwrite exSt [PExt 4]) /\
    disk exSt !! 1 = Some city /\ disk exSt !! 2 = Some parser_test /\ disk st' !! 2 = None.
Proof.
  exists (fst (exOverwrite exSt [PExt 4])). split; [by vm_compute|]. split; [done|].
  split; [by vm_compute|]. split; by vm_compute.
Qed.

(** Refuted: an OWL package given in another format than XML is stored as XML
    under the old "format" key; every later uninstall or overwrite of any other
    package then fails. *)
Theorem C39_refuted_format :
  let st := fst (exInstall exSt [PExt 3]) in
  snd (exInstall exSt [PExt 3]) = None /\
  snd (exUninstall st [UName 2]) = Some (OtherError 1) /\
  snd (exOverwrite st [PExt 1]) = Some (OtherError 1).
Proof. cbv zeta. split; [by vm_compute|]. split; by vm_compute. Qed.

(** Refuted: naming an installed package twice in one install call is an error. *)
Theorem C39_refuted_duplicate_argument :
  snd (exInstall exSt [PExt 1]) = None /\ snd (exInstall exSt [PExt 1; PExt 1]) = Some KeyError.
Proof. split; by vm_compute. Qed.
Print Assumptions C38_fails_iff_missing_or_cyclic.
Print Assumptions C38_history_requirements_installed.
Print Assumptions C39_uninstall_exact.
Print Assumptions C39_overwrite_exact.
