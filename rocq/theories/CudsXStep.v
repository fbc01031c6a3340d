(** The loop of _recursive_store (CudsX.v): the state between two rounds. *)
From stdpp Require Import base list gmap countable.
From Verif Require Import Prelude Cuds CudsProofs CudsX CudsXProofs.

(** Links go both ways and start at objects of the session, which are the only ones with
    attributes.  (Type triples may belong to objects that are not in the session.) *)
Definition tidy (O : onto) (s : sess) : Prop :=
  bidirectional O s /\ (forall x r y, connected s x r y -> x ∈ reg s) /\ (forall x a l, (x, TAttr a l) ∈ gr s -> x ∈ reg s).

(** [v] is reached from [b] along active relationships. *)
Inductive descendant (O : onto) (s : sess) (b : uid) : uid -> Prop :=
| desc_self : descendant O s b b
| desc_child n r v : descendant O s b n -> connected s n r v -> active O r = true -> descendant O s b v.

Lemma tidy_target O s x r y : tidy O s -> connected s x r y -> y ∈ reg s.
Proof. intros (Hb & Hl & _) Hc. apply Hb in Hc. by eapply Hl. Qed.

Lemma get1_spec O s n v r : tidy O s -> connected s n r v -> o_sub O r r = true ->
  get O s n [v] (Some r) None = Ok (One (Some v)).
Proof.
  intros Ht Hc Hsub. unfold get.
  destruct (get__spec O s n [v] (Some r) None) as [(_ & ? & _)|(_ & found & m & -> & _ & _ & Hpos & _)]; [done|].
  destruct (Hpos ltac:(done)) as [Hlen Hp]. destruct found as [|x [|y f]]; try done.
  destruct (Hp 0 v eq_refl) as [[[= ->] _]|[_ Hn]].
  - rewrite load_cuds_objects_id; [done|]. intros u Hu. apply elem_of_list_singleton in Hu as [= ->]. by eapply tidy_target.
  - destruct Hn. exists r. split; [done|]. split; [by intros ? [= <-]|]. split; [intros _; left|done].
Qed.
Lemma get1_inv O s n v r : match get O s n [v] (Some r) None with
  | Ok (One (Some u)) => u = v /\ exists r', connected s n r' v
  | Err e => e = IndexError
  | _ => True
  end.
Proof.
  unfold get.
  destruct (get__spec O s n [v] (Some r) None) as [(_ & ? & _)|(_ & found & m & -> & _ & _ & Hpos & _)]; [done|].
  destruct (Hpos ltac:(done)) as [Hlen Hp]. destruct found as [|x [|y f]]; try done.
  unfold load_cuds_objects, load. destruct (Hp 0 v eq_refl) as [[[= ->] (r' & Hm & _)]|[[= ->] Hn]]; simpl; [|done].
  case_decide; simpl; [|done]. split; [done|by exists r'].
Qed.

Lemma not_act O r : active O r = false <-> active O r <> true.
Proof. destruct (active O r); naive_solver. Qed.

Section Links.
  Context (O : onto) (S T : sess) (Hinv : involutive O) (HS : tidy O S) (HT : tidy O T).
  Local Notation SL x r y := ((x, TLink r y) ∈ gr S).
  Local Notation TL x r y := ((x, TLink r y) ∈ gr T).
  Local Notation act r := (active O r = true).
  Local Notation iv := (o_inv O).
  Definition Lk (P : gset uid) (x : uid) (r : rel) (y : uid) : Prop :=
    (x ∈ P /\ (SL x r y \/ (TL x r y /\ ~ SL x r y /\ ~ act r /\ ~ (y ∈ P /\ act (iv r))))) \/
    (x ∉ P /\ ((TL x r y /\ ~ (y ∈ P /\ act (iv r) /\ ~ SL y (iv r) x)) \/
               (x ∈ reg T /\ y ∈ P /\ SL y (iv r) x /\ ~ act (iv r)))).
  Lemma inv_inj r r' : iv r = iv r' -> r = r'.
  Proof. intros H. by rewrite <- (Hinv r), H, Hinv. Qed.
  Lemma SLb x r y : SL x r y <-> SL y (iv r) x.
  Proof. apply HS. Qed.
  Lemma TLb x r y : TL x r y <-> TL y (iv r) x.
  Proof. apply HT. Qed.
  Lemma TLreg x r y : TL x r y -> x ∈ reg T.
  Proof. apply HT. Qed.
  Lemma TLreg' x r y : TL x r y -> y ∈ reg T.
  Proof. intros H. apply TLb in H. by eapply TLreg. Qed.
  Lemma SL_dec x r y : SL x r y \/ ~ SL x r y.
  Proof. destruct (decide (SL x r y)); tauto. Qed.
  Lemma TL_dec x r y : TL x r y \/ ~ TL x r y.
  Proof. destruct (decide (TL x r y)); tauto. Qed.
  Lemma act_dec r : act r \/ ~ act r.
  Proof. destruct (active O r); [by left|by right]. Qed.
  (* Lk, one object further *)
  Lemma Lk_step P n x r y : n ∉ P -> (forall r, TL n r n -> SL n r n) ->
    Lk (P ∪ {[n]}) x r y <->
    (x = n /\ (SL n r y \/ (Lk P n r y /\ ~ SL n r y /\ ~ act r))) \/
    (x <> n /\ ((Lk P x r y /\ ~ (y = n /\ act (iv r) /\ Lk P n (iv r) x /\ ~ SL n (iv r) x)) \/
                (y = n /\ SL n (iv r) x /\ ~ act (iv r) /\ (x ∈ reg T \/ x ∈ P)))).
  Proof.
    intros Hn Hself. unfold Lk. rewrite !elem_of_union, !elem_of_singleton.
    pose proof (SL_dec x r y) as D1. pose proof (TL_dec x r y) as D2. pose proof (act_dec r) as D3. pose proof (act_dec (iv r)) as D4.
    pose proof (SLb x r y) as B1. pose proof (TLb x r y) as B2. rewrite !Hinv.
    destruct (decide (x = n)) as [->|Hx].
    - pose proof (Hself r) as Hs. destruct (decide (y = n)) as [->|Hy].
      + destruct D1, D3; tauto.
      + assert (y = n <-> False) as Hyn by tauto. destruct (decide (y ∈ P)), D1, D2, D3, D4; tauto.
    - assert (x = n <-> False) as Hxn by tauto. destruct (decide (y = n)) as [->|Hy].
      + pose proof (SLb n (iv r) x) as B3. rewrite Hinv in B3. pose proof (TLb n (iv r) x) as B4. rewrite Hinv in B4. pose proof (TLreg x r n) as B5.
        destruct (decide (x ∈ P)), D1, D2, D3, D4; tauto.
      + assert (y = n <-> False) as Hyn by tauto. clear D1 D2 D3 D4 B1 B2. tauto.
  Qed.
End Links.

Section State.
  Context (O : onto) (mk : cls -> list (attr * lit) -> res (list (attr * lit))) (kt : sid) (S T : sess) (b : uid).
  Local Notation SL x r y := ((x, TLink r y) ∈ gr S).
  Local Notation TL x r y := ((x, TLink r y) ∈ gr T).
  Local Notation act r := (active O r = true).
  Local Notation iv := (o_inv O).
  Local Notation desc := (descendant O S b).

  Record fits (n : uid) : Prop := {
    fits_copy : copyable mk (gr S) n;
    fits_zero : n <> 0%N;
    fits_types : n ∉ reg T -> forall c, (n, TType c) ∈ gr T -> (n, TType c) ∈ gr S;
    fits_lost : forall r v, TL n r v -> ~ SL n r v -> ~ act r ->
      (forall y, TL n r y -> y = v) /\ (forall y, desc y -> SL n r y -> act (iv r));
    fits_self : forall r, TL n r n -> SL n r n }.

  Definition G (P : gset uid) (t : triple) : Prop :=
    match t with
    | (x, TLink r y) => Lk O S T P x r y
    | (x, TType c) => (x ∈ P /\ t ∈ gr S) \/ (x ∉ P /\ (t ∈ gr T \/ (t ∈ gr S /\ exists n r, n ∈ P /\ SL n r x)))
    | (x, TAttr a l) => (x ∈ P /\ t ∈ gr S) \/ (x ∉ P /\ t ∈ gr T)
    end.
  Definition Miss (P : gset uid) (m : missing_t) : Prop :=
    forall v o r, (v, (o, r)) ∈ m <-> exists n, n ∈ P /\ o = Obj kt n /\ SL n r v /\ ~ act r /\ v ∉ reg T /\ v ∉ P.

End State.
