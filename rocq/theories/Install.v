(** Installation of ontology packages: osp/core/ontology/installation.py:33-194
    and the parts of parser.py it uses (44-67 parse, 69-90 store, 92-120
    get_identifier, 145-172 get_requirements, 201-235 _parse_yml, 237-262
    _parse_rdf). *)
From stdpp Require Import base list gmap countable.
From Verif Require Import Prelude.

(** The YAML file of a package.  Names (and IRIs, contents, formats) are
    numbers; format 0 is "xml".  [d_real] is the format the ontology file it
    points to is written in, [d_valid] whether that content (or the YAML
    ontology itself) is free of errors. *)
Record doc := Doc {
  d_rdf : bool;                (* OWL package, or YAML ontology *)
  d_id : N;                    (* identifier / namespace, as written *)
  d_req : option (list N);     (* the key "requirements" *)
  d_fmt : N;                   (* the key "format" *)
  d_real : N;
  d_content : N;
  d_valid : bool
}.
Global Instance doc_eq_dec : EqDecision doc.
Proof. solve_decision. Defined.

(** A path: outside or in the installation directory ("<identifier>.yml"). *)
Inductive path := PExt (n : N) | PInst (n : N).
Global Instance path_eq_dec : EqDecision path.
Proof. solve_decision. Defined.

(** The installation directory, and the contents loaded in the registry. *)
Record inst := Inst { disk : gmap N doc; mem : gset N }.

Definition cuba_content : N := 0.

Section Model.
  (** [lower]: str.lower on names; [has_dot]: whether "." occurs in it; [ext]: the
      YAML files outside of the installation directory; [ord], [ordn]: iteration
      orders of Python sets. *)
  Context (lower : N -> N) (has_dot : N -> bool) (ext : N -> option doc).
  Context (ord : list path -> list path) (ordn : list N -> list N).

  Definition read (st : inst) (p : path) : option doc :=
    match p with PExt n => ext n | PInst i => disk st !! i end.

  (** parser.py:92-120 *)
  Definition ident (d : doc) : N := lower (d_id d).
  Definition get_identifier (st : inst) (p : path) : res N :=
    match read st p with Some d => Ok (ident d) | None => Err OSError end.
  (** parser.py:145-172 *)
  Definition reqs (d : doc) : list N := default [] (d_req d).

  (** installation.py:46-62: the directory listing, in any order. *)
  Definition installed_list (st : inst) : list (N * path) :=
    map (fun i => (i, PInst i)) (ordn (elements (dom (disk st)))).

  (** A Python dict as association list; assignment keeps the position. *)
  Fixpoint dict_set {A} (l : list (N * A)) (k : N) (v : A) : list (N * A) :=
    match l with
    | [] => [(k, v)]
    | (k', v') :: l => if decide (k' = k) then (k, v) :: l else (k', v') :: dict_set l k v
    end.

  (** installation.py:110-128 [_get_new_packages] *)
  Fixpoint skip_installed (st : inst) (packages : list path) (result : list path) : res (list path) :=
    match packages with
    | [] => Ok result
    | p :: ps =>
        match get_identifier st p with
        | Err e => Err e
        | Ok i =>
            if decide (i ∈ dom (disk st)) then
              if decide (p ∈ result)
              then skip_installed st ps (filter (fun q => q <> p) result)
              else Err KeyError
            else skip_installed st ps result
        end
    end.
  Definition new_packages (st : inst) (packages : list path) : res (list path) :=
    rmap ord (skip_installed st packages (remove_dups packages)).

  (** installation.py:93-108 [_get_replaced_packages] *)
  Fixpoint replace_all (st : inst) (packages : list path) (d : list (N * path)) : res (list (N * path)) :=
    match packages with
    | [] => Ok d
    | p :: ps => match get_identifier st p with
                 | Err e => Err e
                 | Ok i => replace_all st ps (dict_set d i p)
                 end
    end.
  Definition replaced_packages (st : inst) (packages : list path) : res (list path) :=
    rmap (map snd) (replace_all st packages (installed_list st)).

  (** installation.py:64-91 [_get_remaining_packages].  An argument is a package
      name or the path of an existing YAML file (a path to nothing is not the
      name of a package). *)
  Inductive uarg := UName (n : N) | UPath (p : path).
  Fixpoint collect_removed (st : inst) (args : list uarg) (acc : list N) : res (list N) :=
    match args with
    | [] => Ok acc
    | a :: args =>
        let n := match a with
                 | UName n => Some n
                 | UPath p => match get_identifier st p with Ok i => Some i | Err _ => None end
                 end in
        match n with
        | Some n => if decide (n ∈ dom (disk st)) then collect_removed st args (n :: acc)
                    else Err ValueError
        | None => Err ValueError
        end
    end.
  Definition remaining_packages (st : inst) (args : list uarg) : res (list path) :=
    rmap (fun rm => map snd (filter (fun kv : N * path => kv.1 ∉ rm) (installed_list st)))
         (collect_removed st args []).

  (** installation.py:157-194 [_sort_for_installation].  The requirements dict is
      a list; removing met requirements from the sets and testing for emptiness
      is testing inclusion.  Every round removes at least one entry, so the
      number of entries is enough fuel. *)
  Fixpoint by_ident (ds : list doc) (acc : list (N * doc)) : list (N * doc) :=
    match ds with [] => acc | d :: ds => by_ident ds (dict_set acc (ident d) d) end.
  Definition ready (installed : gset N) (result : list (N * doc)) (e : N * doc) : bool :=
    forallb (fun r => bool_decide (r ∈ installed \/ r ∈ result.*1)) (reqs (snd e)).
  Fixpoint sort_loop (fuel : nat) (installed : gset N) (todo result : list (N * doc))
    : res (list (N * doc)) :=
    match todo with
    | [] => Ok result
    | _ =>
        match fuel with
        | O => Err OutOfFuel
        | S fuel =>
            let add := filter (fun e => ready installed result e = true) todo in
            match add with
            | [] => Err RuntimeError
            | _ => sort_loop fuel installed
                     (filter (fun e => ready installed result e = false) todo) (result ++ add)
            end
        end
    end.
  Definition sort_docs (ds : list doc) (installed : gset N) : res (list doc) :=
    let files := by_ident ds [] in
    rmap (map snd) (sort_loop (length files) installed files []).
  Definition sort_for_installation (st : inst) (files : list path) (installed : gset N) : res (list doc) :=
    match mapM (fun p => match read st p with Some d => Ok d | None => Err OSError end) files with
    | Err e => Err e
    | Ok ds => sort_docs ds installed
    end.

  (** parser.py:44-67, 201-262: parsing one file; [None]: success.  Allowed keys
      (parser.py:24-27) do not include "requirements". *)
  Definition parse_error (d : doc) : option exn :=
    if d_rdf d then
      if has_dot (d_id d) then Some ValueError
      else match d_req d with
           | Some _ => Some TypeError
           | None => if bool_decide (d_fmt d = d_real d) && d_valid d then None
                     else Some (OtherError 1)
           end
    else if d_valid d then None else Some (OtherError 2).

  (** installation.py:148-149.  (Simplification: of a file that fails nothing is
      loaded; really part of it may be.) *)
  Fixpoint parse_all (m : gset N) (ds : list doc) : gset N * option exn :=
    match ds with
    | [] => (m, None)
    | d :: ds => match parse_error d with
                 | Some e => (m, Some e)
                 | None => parse_all (m ∪ {[ d_content d ]}) ds
                 end
    end.

  (** parser.py:68-87 [store]: the parsed graph of an OWL package is looked up
      under the lower-case identifier, but was recorded under the identifier as
      written (parser.py:264); the ontology file is written as XML, the key
      "format" is kept. *)
  Definition stored (d : doc) : doc :=
    if d_rdf d then Doc true (d_id d) (d_req d) (d_fmt d) 0 (d_content d) (d_valid d) else d.
  Fixpoint store_all (m : gmap N doc) (ds : list doc) : gmap N doc * option exn :=
    match ds with
    | [] => (m, None)
    | d :: ds =>
        if d_rdf d && negb (bool_decide (ident d = d_id d)) then (m, Some KeyError)
        else store_all (<[ident d := stored d]> m) ds
    end.

  (** installation.py:130-155 [_install]; [files] is the result of the filter
      function.  The filter runs after the registry has been cleared (it reads
      only the disk). *)
  Definition install_core (st : inst) (files : res (list path)) (clear : bool) : inst * option exn :=
    let installed := if clear then ∅ else dom (disk st) in
    let m0 := if clear then {[ cuba_content ]} else mem st in
    match files with
    | Err e => (Inst (disk st) m0, Some e)
    | Ok files =>
        match sort_for_installation st files installed with
        | Err e => (Inst (disk st) m0, Some e)
        | Ok ds =>
            match parse_all m0 ds with
            | (m, Some e) => (Inst (disk st) m, Some e)
            | (m, None) =>
                let '(dk, e) := store_all (if clear then ∅ else disk st) ds in
                (Inst dk m, e)
            end
        end
    end.

  (** installation.py:33-46 *)
  Definition install st files := install_core st (new_packages st files) false.
  Definition uninstall st args := install_core st (remaining_packages st args) true.
  Definition install_overwrite st files := install_core st (replaced_packages st files) true.

  Inductive iop := IInstall (l : list path) | IUninstall (l : list uarg) | IOverwrite (l : list path).
  Definition istep (st : inst) (o : iop) : inst :=
    match o with
    | IInstall l => fst (install st l)
    | IUninstall l => fst (uninstall st l)
    | IOverwrite l => fst (install_overwrite st l)
    end.
End Model.

(** ** Proofs *)

(** Specification: an order in which requirements come first. *)
Definition order_ok (installed : gset N) (l : list (N * doc)) : Prop :=
  forall pre e post, l = pre ++ e :: post ->
    forall r, r ∈ reqs e.2 -> r ∈ installed \/ r ∈ pre.*1.

Lemma ready_spec installed result e :
  ready installed result e = true <-> forall r, r ∈ reqs e.2 -> r ∈ installed \/ r ∈ result.*1.
Proof.
  unfold ready. rewrite forallb_forall. split.
  - intros H r Hr. specialize (H r). rewrite bool_decide_eq_true in H. apply H. by apply elem_of_list_In.
  - intros H r Hr. rewrite bool_decide_eq_true. apply H. by apply elem_of_list_In.
Qed.

Lemma order_ok_snoc installed l e :
  order_ok installed l -> (forall r, r ∈ reqs e.2 -> r ∈ installed \/ r ∈ l.*1) ->
  order_ok installed (l ++ [e]).
Proof.
  intros Hl He pre x post Heq r Hr.
  destruct post as [|y post _] using rev_ind.
  - apply app_inj_tail in Heq as [-> ->]. by apply He.
  - rewrite app_comm_cons, app_assoc in Heq. apply app_inj_tail in Heq as [-> _].
    by apply (Hl pre x post eq_refl).
Qed.

Lemma order_ok_app installed l add :
  order_ok installed l -> Forall (fun e => ready installed l e = true) add ->
  order_ok installed (l ++ add).
Proof.
  revert l. induction add as [|e add IH]; intros l Hl Hf; [by rewrite app_nil_r|].
  inversion Hf as [|? ? He Hf']; subst. rewrite cons_middle, app_assoc. apply IH.
  - apply order_ok_snoc; [done|]. by apply ready_spec.
  - apply Forall_forall. intros x Hxin. rewrite Forall_forall in Hf'. pose proof (Hf' x Hxin) as Hx.
    rewrite ready_spec in *. intros r Hr.
    rewrite fmap_app, elem_of_app. destruct (Hx r Hr); auto.
Qed.

Lemma filter_bool_perm {A} (f : A -> bool) (l : list A) :
  filter (fun x => f x = true) l ++ filter (fun x => f x = false) l ≡ₚ l.
Proof.
  induction l as [|x l IH]; [done|]. rewrite !filter_cons. destruct (f x) eqn:E.
  - rewrite decide_True, decide_False by done. cbn. by rewrite IH.
  - rewrite decide_False, decide_True by done. by rewrite <- Permutation_middle, IH.
Qed.
Lemma filter_bool_length {A} (f : A -> bool) (l : list A) :
  (length (filter (fun x => f x = true) l) + length (filter (fun x => f x = false) l) = length l)%nat.
Proof. rewrite <- app_length. by rewrite filter_bool_perm. Qed.

(** If nothing is ready, no order of the rest is possible. *)
Lemma stuck installed todo result l :
  todo <> [] -> filter (fun e => ready installed result e = true) todo = [] ->
  l ≡ₚ result ++ todo -> ~ order_ok installed l.
Proof.
  intros Hne Hf Hp Hok.
  (* the first element of l that is in todo *)
  assert (Hfirst : exists pre e post, l = pre ++ e :: post /\ e ∈ todo /\ forall x, x ∈ pre -> x ∉ todo).
  { assert (Hex : exists e, e ∈ l /\ e ∈ todo).
    { destruct todo as [|e t]; [done|]. exists e. rewrite Hp. split; [apply elem_of_app; right; left|left]. }
    assert (EqDecision (N * doc)) as Hdec by apply _.
    clear -Hex Hdec. induction l as [|x l IH]; destruct Hex as (e & He & Het); [by apply elem_of_nil in He|].
    destruct (decide (x ∈ todo)) as [Hx|Hx].
    - exists [], x, l. split; [done|]. split; [done|]. intros y Hy. by apply elem_of_nil in Hy.
    - destruct IH as (pre & y & post & -> & Hy & Hpre).
      { apply elem_of_cons in He as [->|He]; [done|]. eauto. }
      exists (x :: pre), y, post. split; [done|]. split; [done|]. intros z Hz.
      apply elem_of_cons in Hz as [->|Hz]; auto. }
  destruct Hfirst as (pre & e & post & Hl & He & Hpre).
  assert (Hr : ready installed result e = true).
  { apply ready_spec. intros r Hr. destruct (Hok pre e post Hl r Hr) as [?|Hin]; [by left|right].
    apply elem_of_list_fmap in Hin as (x & -> & Hx). apply elem_of_list_fmap. exists x. split; [done|].
    assert (Hxl : x ∈ result ++ todo).
    { rewrite <- Hp, Hl. apply elem_of_app. by left. }
    apply elem_of_app in Hxl as [?|?]; [done|]. by destruct (Hpre x Hx). }
  assert (Hin : e ∈ filter (fun e => ready installed result e = true) todo).
  { apply elem_of_list_filter. done. }
  rewrite Hf in Hin. by apply elem_of_nil in Hin.
Qed.

Lemma sort_loop_spec fuel installed todo result :
  (length todo <= fuel)%nat -> order_ok installed result ->
  (exists l, sort_loop fuel installed todo result = Ok l /\
     l ≡ₚ result ++ todo /\ order_ok installed l) \/
  (sort_loop fuel installed todo result = Err RuntimeError /\
     forall l, l ≡ₚ result ++ todo -> ~ order_ok installed l).
Proof.
  revert todo result. induction fuel as [|fuel IH]; intros todo result Hf Hok.
  - destruct todo; [|cbn in Hf; lia]. left. exists result. rewrite app_nil_r. done.
  - destruct todo as [|t todo]; [left; exists result; rewrite app_nil_r; done|].
    cbn [sort_loop]. set (td := t :: todo) in *.
    destruct (filter (fun e => ready installed result e = true) td) as [|a add] eqn:Ea.
    { right. split; [done|]. intros l Hl. apply (stuck installed td result l); [done|exact Ea|exact Hl]. }
    set (td' := filter (fun e => ready installed result e = false) td).
    pose proof (filter_bool_length (ready installed result) td) as Hlen.
    pose proof (filter_bool_perm (ready installed result) td) as Hperm.
    rewrite Ea in Hlen, Hperm. fold td' in Hlen, Hperm.
    assert (Hok' : order_ok installed (result ++ a :: add)).
    { apply order_ok_app; [done|]. rewrite <- Ea. apply Forall_forall. intros x Hx.
      apply elem_of_list_In in Hx. by apply elem_of_list_filter in Hx as [? _]. }
    assert (Hp' : (result ++ a :: add) ++ td' ≡ₚ result ++ td) by (by rewrite <- app_assoc, Hperm).
    destruct (IH td' (result ++ a :: add)) as [(l & Hl & Hpl & Hol)|[He Hn]].
    { change (length td) with (S (length todo)) in Hlen. change (length (a :: add)) with (S (length add)) in Hlen.
      change (length td) with (S (length todo)) in Hf. lia. } { done. }
    + left. exists l. split; [done|]. split; [|done]. by rewrite Hpl.
    + right. split; [done|]. intros l Hl. apply Hn. by rewrite Hl.
Qed.

(** A failure shows a group of packages that all wait for something outside of
    the files, or for each other. *)
Lemma sort_loop_err fuel installed todo result e :
  (length todo <= fuel)%nat ->
  sort_loop fuel installed todo result = Err e ->
  e = RuntimeError /\ exists S, S <> [] /\ S ⊆ todo /\
    forall x, x ∈ S -> exists r, r ∈ reqs x.2 /\ r ∉ installed /\
      forall y, y ∈ result ++ todo -> y.1 = r -> y ∈ S.
Proof.
  revert todo result. induction fuel as [|fuel IH]; intros todo result Hf He.
  - destruct todo; [done|cbn in Hf; lia].
  - destruct todo as [|t todo]; [done|]. cbn [sort_loop] in He. set (td := t :: todo) in *.
    destruct (filter (fun e => ready installed result e = true) td) as [|a add] eqn:Ea.
    + injection He as <-. split; [done|]. exists td. split; [done|]. split; [done|].
      intros x Hx. assert (Hnr : ready installed result x <> true).
      { intros Hr. assert (Hin : x ∈ filter (fun e => ready installed result e = true) td)
          by (by apply elem_of_list_filter). rewrite Ea in Hin. by apply elem_of_nil in Hin. }
      unfold ready in Hnr. apply not_true_is_false in Hnr.
      assert (Hex : exists r, r ∈ reqs x.2 /\ bool_decide (r ∈ installed \/ r ∈ result.*1) = false).
      { clear -Hnr. induction (reqs x.2) as [|r l IHl]; [done|]. cbn in Hnr.
        apply andb_false_iff in Hnr as [H|H].
        - exists r. split; [left|done].
        - destruct (IHl H) as (r' & Hr & Hb). exists r'. split; [by right|done]. }
      destruct Hex as (r & Hr & Hb). apply bool_decide_eq_false in Hb. exists r. split; [done|].
      split; [tauto|]. intros y Hy Heq. apply elem_of_app in Hy as [Hy|Hy]; [|done].
      exfalso. apply Hb. right. apply elem_of_list_fmap. exists y. done.
    + set (td' := filter (fun e => ready installed result e = false) td) in *.
      pose proof (filter_bool_length (ready installed result) td) as Hlen.
      pose proof (filter_bool_perm (ready installed result) td) as Hperm.
      rewrite Ea in Hlen, Hperm. fold td' in Hlen, Hperm.
      apply IH in He as (-> & S & Hne & Hsub & HS).
      * split; [done|]. exists S. split; [done|]. split.
        { intros x Hx%Hsub. by apply elem_of_list_filter in Hx as [_ ?]. }
        intros x Hx. destruct (HS x Hx) as (r & Hr & Hri & Hy). exists r. split; [done|].
        split; [done|]. intros y Hyin. apply Hy. rewrite <- app_assoc, Hperm. done.
      * change (length td) with (Datatypes.S (length todo)) in Hlen.
        change (length (a :: add)) with (Datatypes.S (length add)) in Hlen.
        change (length td) with (Datatypes.S (length todo)) in Hf. lia.
Qed.


  Lemma dict_set_keys {A} (l : list (N * A)) k v x :
    x ∈ (dict_set l k v).*1 <-> x ∈ l.*1 \/ x = k.
  Proof.
    induction l as [|[k' v'] l IH]; cbn.
    - rewrite elem_of_list_singleton. rewrite elem_of_nil. tauto.
    - case_decide; csimpl; rewrite !elem_of_cons; [subst; tauto|]. rewrite IH. tauto.
  Qed.
  Lemma dict_set_nodup {A} (l : list (N * A)) k v : NoDup l.*1 -> NoDup (dict_set l k v).*1.
  Proof.
    induction l as [|[k' v'] l IH]; cbn; intros Hn.
    - constructor; [by intros ?%elem_of_nil|constructor].
    - inversion Hn; subst. case_decide; csimpl.
      + subst. by constructor.
      + constructor; [|by apply IH]. rewrite dict_set_keys. intros [?| ->]; done.
  Qed.
  Lemma elem_dict_set {A} (l : list (N * A)) k v e :
    NoDup l.*1 -> e ∈ dict_set l k v <-> (e ∈ l /\ e.1 <> k) \/ e = (k, v).
  Proof.
    induction l as [|[k' v'] l IH]; cbn; intros Hn.
    - rewrite elem_of_list_singleton, elem_of_nil. tauto.
    - inversion Hn as [|? ? Hni Hn']; subst. case_decide as Hk; rewrite !elem_of_cons.
      + subst. split.
        * intros [?|Hin]; [by right|]. left. split; [by right|]. intros Heq. apply Hni.
          apply elem_of_list_fmap. exists e. done.
        * intros [[[->|?] Hne]|?]; [done|by right|by left].
      + rewrite (IH Hn'). split.
        * intros [->|[[? ?]|?]]; [left; split; [by left|done]|left; split; [by right|done]|by right].
        * intros [[[?|?] ?]|?]; [by left|right; by left|right; by right].
  Qed.

Section Facts.
  Context (lower : N -> N).
  Notation ident := (ident lower).
  Notation by_ident := (by_ident lower).

  (** The dict of files by identifier: the last file with an identifier. *)
  Lemma by_ident_nodup ds acc : NoDup acc.*1 -> NoDup (by_ident ds acc).*1.
  Proof. revert acc. induction ds as [|d ds IH]; intros acc Hn; cbn; [done|]. by apply IH, dict_set_nodup. Qed.
  Lemma by_ident_keys ds acc x : x ∈ (by_ident ds acc).*1 <-> x ∈ acc.*1 \/ exists d, d ∈ ds /\ ident d = x.
  Proof.
    revert acc. induction ds as [|d ds IH]; intros acc; cbn.
    - split; [by left|]. intros [?|(d & Hd & _)]; [done|by apply elem_of_nil in Hd].
    - rewrite IH, dict_set_keys. split.
      + intros [[?|Hx]|(d' & Hd & Hx)]; [by left| |].
        * right. exists d. split; [left|done].
        * right. exists d'. split; [by right|done].
      + intros [?|(d' & Hd & Hx)]; [auto|]. apply elem_of_cons in Hd as [->|Hd]; [auto|].
        right. eauto.
  Qed.
  Lemma by_ident_ident ds acc : NoDup acc.*1 ->
    (forall e, e ∈ acc -> ident e.2 = e.1) ->
    forall e, e ∈ by_ident ds acc -> ident e.2 = e.1 /\ (e ∈ acc \/ e.2 ∈ ds).
  Proof.
    revert acc. induction ds as [|d ds IH]; intros acc Hn Ha e He; cbn in He.
    - split; [by apply Ha|by left].
    - apply IH in He as [Hi Hor].
      + split; [done|]. destruct Hor as [He|He]; [|right; by right].
        apply elem_dict_set in He as [[? _]| ->]; [by left|right; left|done].
      + by apply dict_set_nodup.
      + intros x Hx. apply elem_dict_set in Hx as [[? _]| ->]; [by apply Ha|done|done].
  Qed.

  (** With distinct identifiers the dict is the list. *)
  Lemma by_ident_distinct ds acc :
    NoDup (acc.*1 ++ map ident ds) -> by_ident ds acc = acc ++ map (fun d => (ident d, d)) ds.
  Proof.
    revert acc. induction ds as [|d ds IH]; intros acc Hn; cbn; [by rewrite app_nil_r|].
    assert (Hni : ident d ∉ acc.*1).
    { apply NoDup_app in Hn as (_ & Hd & _). intros Hin. apply (Hd _ Hin). cbn. left. }
    assert (Heq : dict_set acc (ident d) d = acc ++ [(ident d, d)]).
    { clear -Hni. induction acc as [|[k v] acc IH]; [done|]. cbn. csimpl in Hni.
      rewrite elem_of_cons in Hni. rewrite decide_False by naive_solver. rewrite IH; [done|naive_solver]. }
    rewrite IH.
    - rewrite Heq, <- app_assoc. done.
    - rewrite Heq, fmap_app. cbn. rewrite <- app_assoc. done.
  Qed.

  Lemma sort_docs_spec ds installed :
    (exists l, sort_docs lower ds installed = Ok l /\
       map (fun d => (ident d, d)) l ≡ₚ by_ident ds [] /\
       order_ok installed (map (fun d => (ident d, d)) l)) \/
    (sort_docs lower ds installed = Err RuntimeError /\
       forall l, l ≡ₚ by_ident ds [] -> ~ order_ok installed l).
  Proof.
    unfold sort_docs. cbv zeta.
    destruct (sort_loop_spec (length (by_ident ds [])) installed (by_ident ds []) [])
      as [(l & -> & Hp & Ho)|[-> Hn]]; [done|intros [] ? ? [=]| |].
    - left. exists (map snd l). split; [done|]. cbn in Hp.
      assert (Heq : map (fun d => (ident d, d)) (map snd l) = l).
      { assert (Hid : forall e, e ∈ l -> ident e.2 = e.1).
        { intros e He. rewrite Hp in He. eapply by_ident_ident in He as [? _]; [done|constructor|].
          intros x Hx. by apply elem_of_nil in Hx. }
        clear -Hid. induction l as [|[k d] l IH]; [done|]. cbn. rewrite IH.
        - f_equal. f_equal. apply (Hid (k, d)). left.
        - intros e He. apply Hid. by right. }
      rewrite Heq. done.
    - right. split; [done|]. done.
  Qed.

  Lemma store_all_spec m ds m' e :
    store_all lower m ds = (m', e) ->
    exists done todo, ds = done ++ todo /\
      m' = foldl (fun m d => <[ident d := stored d]> m) m done /\
      (e = None -> todo = []) /\
      (e <> None -> exists d t, todo = d :: t /\ d_rdf d = true /\ ident d <> d_id d /\ e = Some KeyError).
  Proof.
    revert m. induction ds as [|d ds IH]; intros m H; cbn in H.
    - injection H as <- <-. exists [], []. done.
    - destruct (d_rdf d && negb (bool_decide (ident d = d_id d))) eqn:E.
      + injection H as <- <-. exists [], (d :: ds). split; [done|]. split; [done|]. split; [done|].
        intros _. exists d, ds. apply andb_true_iff in E as [? Hb%negb_true_iff].
        apply bool_decide_eq_false in Hb. done.
      + apply IH in H as (dn & td & -> & -> & H1 & H2). exists (d :: dn), td. done.
  Qed.

End Facts.

  Lemma parse_all_spec has_dot m ds :
    (parse_all has_dot m ds = (m ∪ list_to_set (map d_content ds), None) /\
       Forall (fun d => parse_error has_dot d = None) ds) \/
    (exists m' e, parse_all has_dot m ds = (m', Some e) /\
       exists d, d ∈ ds /\ parse_error has_dot d = Some e).
  Proof.
    revert m. induction ds as [|d ds IH]; intros m; cbn.
    - left. split; [|constructor]. f_equal. set_solver.
    - destruct (parse_error has_dot d) as [e|] eqn:E.
      + right. exists m, e. split; [done|]. exists d. split; [left|done].
      + destruct (IH (m ∪ {[d_content d]})) as [[-> Hf]|(m' & e & -> & d' & Hd & He)].
        * left. split; [|by constructor]. f_equal. set_solver.
        * right. exists m', e. split; [done|]. exists d'. split; [by right|done].
  Qed.
