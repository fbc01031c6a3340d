(** Theorems about query results (C41). *)
From stdpp Require Import base list.
From Verif Require Import Prelude QueryResult.

Section Theorems.
  Context {A : Type} `{EqDecision A}.
  Implicit Types (q : qres A) (src : list (option A)).

  (** The elements remembered and the elements to come make up the result. *)
  Definition holds src q : Prop := q_elems q ++ q_rest q = src.

  Lemma pull_holds src q x q' : holds src q -> q_pull q = Some (x, q') -> holds src q'.
  Proof.
    unfold holds, q_pull. destruct (q_rest q) as [|y r] eqn:E; [done|]. intros Hh [= <- <-]. cbn.
    by rewrite <- app_assoc.
  Qed.
  Lemma all_holds src q : holds src q -> holds src (fst (q_all q)).
  Proof. unfold holds. cbn. by rewrite app_nil_r. Qed.
  Lemma first_holds src q : holds src q -> holds src (fst (q_first q)).
  Proof.
    intros Hh. unfold q_first. destruct (q_elems q); [|done].
    destruct (q_pull q) as [[x q']|] eqn:E; [|done]. by eapply pull_holds.
  Qed.
  Lemma pull_gen_holds src q : holds src q -> holds src (fst (fst (pull_gen q))).
  Proof.
    intros Hh. unfold pull_gen. destruct (q_pull q) as [[x q']|] eqn:E; [|done]. by eapply pull_holds.
  Qed.
  Lemma gen_holds src q g : holds src q -> holds src (fst (fst (gen_next q g))).
  Proof.
    intros Hh. unfold gen_next. destruct g as [i| |]; [|by apply pull_gen_holds|done].
    destruct (q_elems q !! i); [done|by apply pull_gen_holds].
  Qed.
  Lemma one_holds src q b : holds src q -> holds src (fst (q_one q b)).
  Proof.
    intros Hh. unfold q_one. pose proof (first_holds src q Hh) as H1.
    destruct (q_first q) as [q1 x]. cbn in H1.
    destruct (1 <? length (q_elems q1))%nat; [by apply all_holds|].
    destruct (q_pull q1) as [[y q2]|] eqn:E.
    - apply all_holds. by eapply pull_holds.
    - destruct x; [done|]. by destruct b.
  Qed.

  Lemma step_holds src (s : qres A * list gen) o : holds src (fst s) -> holds src (fst (qstep s o)).
  Proof.
    destruct s as [q gs]. cbn. intros Hh. destruct o; cbn.
    - unfold q_next. destruct (q_pull q) as [[x q']|] eqn:E; [|done]. by eapply pull_holds.
    - by apply all_holds.
    - by apply first_holds.
    - by apply one_holds.
    - by apply all_holds.
    - done.
    - destruct (gs !! k) as [g|]; [|done]. pose proof (gen_holds src q g Hh) as H1.
      destruct (gen_next q g) as [[q' g'] y]. done.
  Qed.

  (** After every history of calls, including any number of interleaved
      iterators: what was fetched and what was not is the result, in order.  So
      every element is fetched at most once, and none is lost. *)
  Theorem C41_nothing_lost src ops :
    let q := fst (foldl qstep (q_init src, []) ops) in q_elems q ++ q_rest q = src.
  Proof.
    cbv zeta. change (holds src (fst (foldl qstep (q_init src, []) ops))).
    assert (Hg : forall ops (s : qres A * list gen), holds src (fst s) -> holds src (fst (foldl qstep s ops))).
    { clear ops. induction ops as [|o ops IH]; intros s Hs; cbn; [done|]. apply IH. by apply step_holds. }
    apply Hg. done.
  Qed.

  (** all(), first(), containment, one() and a loop over the result give the same
      answer after every history. *)
  Theorem C41_all_complete src ops :
    snd (q_all (fst (foldl qstep (q_init src, []) ops))) = src.
  Proof. cbn. apply C41_nothing_lost. Qed.

  Theorem C41_contains src ops x :
    snd (q_contains (fst (foldl qstep (q_init src, []) ops)) x) = true <-> x ∈ src.
  Proof.
    unfold q_contains. pose proof (C41_nothing_lost src ops) as Hh. cbv zeta in Hh.
    destruct (foldl qstep (q_init src, []) ops) as [q gs]. cbn in *.
    rewrite Hh. apply bool_decide_eq_true.
  Qed.

  Theorem C41_first src ops :
    snd (q_first (fst (foldl qstep (q_init src, []) ops))) =
    match src with [] => None | x :: _ => x end.
  Proof.
    pose proof (C41_nothing_lost src ops) as Hh. cbv zeta in Hh.
    destruct (foldl qstep (q_init src, []) ops) as [q gs]. cbn in *.
    unfold q_first, q_pull. destruct (q_elems q) as [|x es]; cbn in *.
    - destruct (q_rest q) as [|y r]; cbn in *; by subst.
    - by subst.
  Qed.

  (** one(): exactly one element (not None) is returned; otherwise an error that
      says why. *)
  Theorem C41_one src ops b :
    snd (q_one (fst (foldl qstep (q_init src, []) ops)) b) =
    match src with
    | [] | [None] => if b then Err ResultEmptyError else Ok None
    | [Some x] => Ok (Some x)
    | _ => Err MultipleResultsError
    end.
  Proof.
    pose proof (C41_nothing_lost src ops) as Hh. cbv zeta in Hh.
    destruct (foldl qstep (q_init src, []) ops) as [q gs]. cbn in *.
    destruct q as [es r]. cbn in Hh. unfold q_one, q_first, q_pull. cbn.
    destruct es as [|x [|y es]]; cbn in *.
    - destruct r as [|z [|w r]]; cbn; subst; cbn; [by destruct b| |by destruct z].
      destruct z; [done|by destruct b].
    - destruct r as [|z r]; cbn; subst; cbn; [|by destruct x].
      destruct x; [done|by destruct b].
    - subst. by destruct x.
  Qed.

  (** next() delivers the first element that was not fetched before. *)
  Theorem C41_next src ops :
    let q := fst (foldl qstep (q_init src, []) ops) in
    snd (q_next q) = match drop (length (q_elems q)) src with [] => Err StopIteration | x :: _ => Ok x end.
  Proof.
    cbv zeta. pose proof (C41_nothing_lost src ops) as Hh. cbv zeta in Hh.
    destruct (foldl qstep (q_init src, []) ops) as [q gs]. cbn in *.
    rewrite <- Hh, drop_app. unfold q_next, q_pull. by destruct (q_rest q).
  Qed.

  Lemma drain_iter q fuel :
    (length (q_rest q) < fuel)%nat -> snd (drain fuel q GIter) = q_rest q.
  Proof.
    revert q. induction fuel as [|fuel IH]; intros [es r] Hf; cbn in *; [lia|].
    unfold pull_gen, q_pull. cbn. destruct r as [|x r]; cbn in *; [done|].
    specialize (IH (Q (es ++ [x]) r)). cbn in IH. destruct (drain fuel (Q (es ++ [x]) r) GIter) as [q' l]. cbn in *.
    rewrite IH by lia. done.
  Qed.

  Lemma drain_elems q i fuel :
    (i <= length (q_elems q))%nat -> (length (q_elems q) + length (q_rest q) - i < fuel)%nat ->
    snd (drain fuel q (GElems i)) = drop i (q_elems q) ++ q_rest q.
  Proof.
    revert i. induction fuel as [|fuel IH]; intros i Hi Hf; [lia|]. cbn.
    destruct (q_elems q !! i) as [x|] eqn:E.
    - pose proof (lookup_lt_Some _ _ _ E). rewrite (drop_S _ _ _ E). cbn.
      specialize (IH (S i)). destruct (drain fuel q (GElems (S i))) as [q' l]. cbn in *.
      rewrite IH by lia. done.
    - apply lookup_ge_None in E. rewrite drop_ge by lia. cbn.
      unfold pull_gen, q_pull. destruct q as [es r]. cbn in *. destruct r as [|x r]; [done|]. cbn in *.
      pose proof (drain_iter (Q (es ++ [x]) r) fuel) as Hd. cbn in Hd. destruct (drain fuel (Q (es ++ [x]) r) GIter) as [q' l]. cbn in *.
      rewrite Hd by lia. done.
  Qed.

  (** A loop over the result yields the complete result in order, whatever was
      done before (also by other, unfinished iterators). *)
  Theorem C41_iteration src ops fuel :
    (length src < fuel)%nat ->
    snd (drain fuel (fst (foldl qstep (q_init src, []) ops)) gen_new) = src.
  Proof.
    intros Hf. pose proof (C41_nothing_lost src ops) as Hh. cbv zeta in Hh.
    destruct (foldl qstep (q_init src, []) ops) as [q gs]. cbn in *.
    unfold gen_new. rewrite drain_elems; [done|lia|].
    rewrite <- Hh, app_length in Hf. lia.
  Qed.
End Theorems.

Example C41_example :
  let src := [Some 1; Some 2; Some 3]%N in
  let q := fst (foldl qstep (q_init src, []) [QFirst; QIter; QStep 0; QNext; QStep 0; QContains (Some 3%N)]) in
  snd (q_all q) = src /\ snd (drain 9 q gen_new) = src /\ snd (q_one q true) = Err MultipleResultsError.
Proof. vm_compute. done. Qed.

(** Refuted: two iterators that are advanced alternately do not both deliver
    the complete result: once an iterator waits for new elements, those fetched
    by the other one are skipped. *)
Theorem C41_refuted_interleaved_iterators :
  let src := [Some 1; Some 2; Some 3; Some 4]%N in
  let '(q, gs) := foldl qstep (q_init src, []) [QIter; QIter; QStep 0; QStep 0] in
  (* iterator 0 delivered 1, 2; now iterator 1 runs to the end, then 0 goes on *)
  exists g0 g1, gs = [g0; g1] /\
    snd (drain 9 q g1) = src /\ snd (drain 9 (fst (drain 9 q g1)) g0) = [].
Proof. vm_compute. by exists GIter, (GElems 0). Qed.

(** Refuted: a result with exactly one element that is None is reported empty. *)
Theorem C41_refuted_one_none :
  snd (q_one (q_init [@None N]) true) = Err ResultEmptyError /\ length (snd (q_all (q_init [@None N]))) = 1%nat.
Proof. done. Qed.
Print Assumptions C41_one.
Print Assumptions C41_iteration.
