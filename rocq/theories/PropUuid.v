(** Theorems about uids and IRIs (C42) and the substitution of the root (C31). *)
From Coq Require Import List Arith NArith Lia Bool String.
From Verif Require Import Prelude Utf8 Text Uuid.
Import ListNotations.
Local Open Scope nat_scope.
Local Open Scope list_scope.

(** ** Lemmas *)
Definition hexch (c : N) : Prop := (48 <= c <= 57)%N \/ (97 <= c <= 102)%N.

Lemma hexc_ch d : (d < 16)%N -> hexch (hexc d).
Proof. unfold hexch, hexc. intros H. destruct (N.ltb_spec d 10); lia. Qed.
Lemma hexval_hexc d : (d < 16)%N -> hexval (hexc d) = Some d.
Proof.
  intros H. unfold hexval, hexc. destruct (N.ltb_spec d 10).
  - replace ((48 <=? 48 + d) && (48 + d <=? 57))%N with true by
      (symmetry; apply andb_true_iff; split; apply N.leb_le; lia).
    f_equal. lia.
  - replace ((48 <=? 87 + d) && (87 + d <=? 57))%N with false by
      (symmetry; apply andb_false_iff; right; apply N.leb_gt; lia).
    replace ((97 <=? 87 + d) && (87 + d <=? 102))%N with true by
      (symmetry; apply andb_true_iff; split; apply N.leb_le; lia).
    f_equal. lia.
Qed.
Lemma hexfix_ch k n : Forall hexch (hexfix k n).
Proof.
  revert n; induction k as [|k IH]; intros n; cbn [hexfix]; [constructor|].
  apply Forall_app. split; [apply IH|]. constructor; [|constructor].
  apply hexc_ch. apply N.mod_lt. lia.
Qed.
Lemma hexfix_length k n : List.length (hexfix k n) = k.
Proof. revert n; induction k; intros n; cbn [hexfix]; [reflexivity|]. rewrite app_length, IHk. cbn. lia. Qed.

Lemma hexdigits_app a s t :
  Forall hexch s -> s <> [] -> forall b,
  hexdigits a b (s ++ t) =
  match hexdigits a b s with Some n => hexdigits n false t | None => None end.
Proof.
  intros Hs. revert a. induction Hs as [|c s Hc Hs IH]; intros a Hne b; [congruence|].
  cbn [app hexdigits].
  destruct (N.eqb_spec c 95) as [->|_]; [unfold hexch in Hc; lia|].
  destruct (hexval c) as [d|]; [|reflexivity].
  destruct s as [|c' s'].
  - reflexivity.
  - apply IH. congruence.
Qed.
Lemma hexdigits_hexfix k n b :
  k <> 0 -> hexdigits 0 b (hexfix k n) = Some (n mod 16 ^ N.of_nat k)%N.
Proof.
  revert n b. induction k as [|k IH]; intros n b Hk; [congruence|]. cbn [hexfix].
  assert (n mod 16 < 16)%N as Hm by (apply N.mod_lt; lia).
  destruct k as [|k].
  { cbn [hexfix app hexdigits]. destruct (N.eqb_spec (hexc (n mod 16)) 95) as [E|_].
    { pose proof (hexc_ch _ Hm) as H. rewrite E in H. unfold hexch in H. lia. }
    rewrite hexval_hexc by exact Hm. f_equal. }
  rewrite hexdigits_app.
  2: apply hexfix_ch.
  2: { intros E. apply (f_equal (@List.length N)) in E. rewrite hexfix_length in E. discriminate E. }
  rewrite IH by congruence. cbn [hexdigits].
  destruct (N.eqb_spec (hexc (n mod 16)) 95) as [E|_].
  { pose proof (hexc_ch _ Hm) as H. rewrite E in H. unfold hexch in H. lia. }
  rewrite hexval_hexc by exact Hm. f_equal.
  rewrite (Nat2N.inj_succ (S k)), N.pow_succ_r'. rewrite N.mod_mul_r by lia. lia.
Qed.

Lemma remove_all_fuel_id fuel p s c0 p' :
  p = c0 :: p' -> ~ In c0 s -> remove_all_fuel fuel p s = s.
Proof.
  intros ->. revert s; induction fuel as [|fuel IH]; intros s Hs; [reflexivity|].
  destruct s as [|c s']; [reflexivity|]. cbn [remove_all_fuel].
  cbn [startswith]. destruct (N.eqb_spec c0 c) as [->|_]; [destruct Hs; left; reflexivity|].
  cbn [andb]. f_equal. apply IH. intros H. apply Hs. right. exact H.
Qed.
Lemma remove_all_id p s c0 p' : p = c0 :: p' -> ~ In c0 s -> remove_all p s = s.
Proof. intros E H. unfold remove_all. exact (remove_all_fuel_id _ _ _ _ _ E H). Qed.

Definition not_dash (c : N) : bool := negb (N.eqb c 45).
Lemma remove_dash_filter fuel s :
  List.length s < fuel -> remove_all_fuel fuel (lit "-") s = filter not_dash s.
Proof.
  revert s. induction fuel as [|fuel IH]; intros s Hf; [lia|].
  destruct s as [|c s]; [reflexivity|]. cbn [remove_all_fuel filter].
  change (lit "-") with [45%N]. cbn [startswith]. unfold not_dash at 1. rewrite (N.eqb_sym c 45).
  change [45%N] with (lit "-"). cbn in Hf.
  destruct (N.eqb 45 c); cbn [andb negb]; [|f_equal]; (rewrite IH; [reflexivity|cbn; lia]).
Qed.
Lemma filter_dash_id s : ~ In 45%N s -> filter not_dash s = s.
Proof.
  induction s as [|c s IH]; intros H; [reflexivity|]. cbn [filter]. unfold not_dash at 1.
  destruct (N.eqb_spec c 45) as [E|_]; [destruct H; left; exact E|]. cbn [negb]. f_equal. apply IH.
  intros Hi. apply H. right. exact Hi.
Qed.

Lemma lstrip_id f s : (forall c s', s = c :: s' -> f c = false) -> lstrip f s = s.
Proof. destruct s as [|c s]; [reflexivity|]. intros H. cbn. now rewrite (H c s eq_refl). Qed.
Lemma strip_id f s : Forall (fun c => f c = false) s -> strip f s = s.
Proof.
  intros H. unfold strip. rewrite (lstrip_id f s).
  - rewrite lstrip_id; [apply rev_involutive|]. intros c s' E. apply Forall_rev in H.
    rewrite E in H. inversion H; assumption.
  - intros c s' ->. inversion H; assumption.
Qed.

Lemma sub_concat h : List.length h = 32 ->
  sub 0 8 h ++ sub 8 12 h ++ sub 12 16 h ++ sub 16 20 h ++ sub 20 32 h = h.
Proof.
  intros Hl. do 32 (destruct h as [|? h]; [discriminate Hl|]). destruct h; [reflexivity|discriminate Hl].
Qed.
Lemma sub_in i j h c : In c (sub i j h) -> In c h.
Proof.
  unfold sub. intros H. rewrite <- (firstn_skipn i h). apply in_or_app. right.
  rewrite <- (firstn_skipn (j - i) (skipn i h)). apply in_or_app. now left.
Qed.

Lemma uuid_str_chars u c : In c (uuid_str u) -> hexch c \/ c = 45%N.
Proof.
  unfold uuid_str. pose proof (hexfix_ch 32 u) as Hf. rewrite Forall_forall in Hf.
  rewrite !in_app_iff. intros H.
  repeat (destruct H as [H|H]; [first [apply sub_in in H; left; now apply Hf | now destruct H as [<-|[]]; right]|]).
  apply sub_in in H. left. now apply Hf.
Qed.

Lemma remove_all_uuid u : remove_all (lit "-") (uuid_str u) = hexfix 32 u.
Proof.
  assert (forall i j, ~ In 45%N (sub i j (hexfix 32 u))) as Hn.
  { intros i j H. apply sub_in in H. pose proof (hexfix_ch 32 u) as Hf. rewrite Forall_forall in Hf.
    apply Hf in H. unfold hexch in H. lia. }
  unfold remove_all, uuid_str. pose proof (hexfix_length 32 u) as Hl.
  set (h := hexfix 32 u) in *.
  transitivity (sub 0 8 h ++ sub 8 12 h ++ sub 12 16 h ++ sub 16 20 h ++ sub 20 32 h);
    [|now apply sub_concat].
  rewrite remove_dash_filter by lia. rewrite !filter_app. change (filter not_dash (lit "-")) with (@nil N).
  rewrite ?app_nil_l.
  repeat match goal with |- context [filter not_dash (sub ?i ?j h)] => rewrite (filter_dash_id _ (Hn i j)) end.
  reflexivity.
Qed.

Lemma uuid_roundtrip u : (u < 2 ^ 128)%N -> uuid_of_text (uuid_str u) = Ok u.
Proof.
  intros Hu. unfold uuid_of_text. pose proof (uuid_str_chars u) as Hc.
  rewrite (remove_all_id (lit "urn:") _ 117%N (lit "rn:") eq_refl).
  2: { intros H. apply Hc in H. unfold hexch in H. lia. }
  rewrite (remove_all_id (lit "uuid:") _ 117%N (lit "uid:") eq_refl).
  2: { intros H. apply Hc in H. unfold hexch in H. lia. }
  rewrite (strip_id is_brace).
  2: { apply Forall_forall. intros c H. apply Hc in H. unfold is_brace.
       destruct (N.eqb_spec c 123) as [->|_]; [unfold hexch in H; lia|].
       destruct (N.eqb_spec c 125) as [->|_]; [unfold hexch in H; lia|]. reflexivity. }
  rewrite remove_all_uuid, hexfix_length. cbn [Nat.eqb].
  pose proof (hexfix_ch 32 u) as Hf.
  unfold int16. rewrite (strip_id is_blank).
  2: { eapply Forall_impl; [|exact Hf]. intros c H. unfold hexch in H. unfold is_blank.
       destruct (N.eqb_spec c 32) as [->|_]; [lia|]. rewrite orb_false_r.
       apply andb_false_iff. right. apply N.leb_gt. lia. }
  assert (forall c0 p', ~ hexch c0 -> startswith (c0 :: p') (hexfix 32 u) = false) as Hs.
  { intros c0 p' Hn. destruct (startswith (c0 :: p') (hexfix 32 u)) eqn:E; [|reflexivity].
    apply startswith_iff in E as [r E]. rewrite E in Hf. inversion Hf. contradiction. }
  change (lit "+") with [43%N]. rewrite (Hs 43%N []) by (unfold hexch; lia).
  assert (forall c1, ~ hexch c1 -> startswith [48%N; c1] (hexfix 32 u) = false) as Hs2.
  { intros c1 Hn. destruct (startswith [48%N; c1] (hexfix 32 u)) eqn:E; [|reflexivity].
    apply startswith_iff in E as [r E]. rewrite E in Hf. inversion Hf as [|? ? _ Hf']. inversion Hf'. contradiction. }
  change (lit "0x") with [48%N; 120%N]. change (lit "0X") with [48%N; 88%N].
  rewrite !Hs2 by (unfold hexch; lia). cbn [orb].
  rewrite hexdigits_hexfix by discriminate. f_equal. apply N.mod_small.
  change (N.of_nat 32) with 32%N. replace (16 ^ 32)%N with (2 ^ 128)%N by reflexivity. exact Hu.
Qed.

(** * C42 *)

(** uid -> IRI -> uid is the identity, for all 2^128 uids. *)
Theorem C42_roundtrip u : (u < 2 ^ 128)%N -> uid_from_iri (iri_from_uid u) = Ok u.
Proof. intros Hu. unfold uid_from_iri, iri_from_uid. rewrite after_app. now apply uuid_roundtrip. Qed.

(** Different uids have different IRIs. *)
Theorem C42_injective u v :
  (u < 2 ^ 128)%N -> (v < 2 ^ 128)%N -> iri_from_uid u = iri_from_uid v -> u = v.
Proof.
  intros Hu Hv E. apply C42_roundtrip in Hu, Hv. rewrite E, Hv in Hu. congruence.
Qed.

(** The IRI has the documented form: the prefix followed by 36 characters that are
    lower-case hexadecimal digits and hyphens. *)
Theorem C42_form u :
  exists t, iri_from_uid u = lit "http://www.osp-core.com/cuds/#" ++ t /\ List.length t = 36 /\
    forall c, In c t -> (48 <= c <= 57)%N \/ (97 <= c <= 102)%N \/ c = 45%N.
Proof.
  exists (uuid_str u). split; [reflexivity|]. split.
  - unfold uuid_str. pose proof (hexfix_length 32 u) as Hl. set (h := hexfix 32 u) in *.
    rewrite !app_length. unfold sub. rewrite !firstn_length, !skipn_length, Hl. reflexivity.
  - intros c H. apply uuid_str_chars in H. unfold hexch in H. tauto.
Qed.

(** What uid_from_iri returns is a uid: below 2^128, for every text. *)
Lemma hexdigits_bound s a b n :
  hexdigits a b s = Some n -> (n < (a + 1) * 16 ^ N.of_nat (List.length s))%N.
Proof.
  revert a b. induction s as [|c s IH]; intros a b; cbn [hexdigits List.length].
  - destruct b; [discriminate|]. intros [= <-]. change (16 ^ N.of_nat 0)%N with 1%N. lia.
  - rewrite Nat2N.inj_succ, N.pow_succ_r'.
    assert (0 < 16 ^ N.of_nat (List.length s))%N as Hp by (apply N.neq_0_lt_0, N.pow_nonzero; lia).
    destruct (N.eqb c 95).
    + destruct b; [discriminate|]. intros E. apply IH in E. nia.
    + assert (forall d, hexval c = Some d -> (d < 16)%N) as Hv.
      { unfold hexval. intros d.
        destruct ((48 <=? c) && (c <=? 57))%N eqn:E1.
        { apply andb_true_iff in E1 as [A B]. apply N.leb_le in A, B. intros [= <-]. lia. }
        destruct ((97 <=? c) && (c <=? 102))%N eqn:E2.
        { apply andb_true_iff in E2 as [A B]. apply N.leb_le in A, B. intros [= <-]. lia. }
        destruct ((65 <=? c) && (c <=? 70))%N eqn:E3; [|discriminate].
        apply andb_true_iff in E3 as [A B]. apply N.leb_le in A, B. intros [= <-]. lia. }
      destruct (hexval c) as [d|]; [|discriminate]. specialize (Hv d eq_refl).
      intros E. apply IH in E. nia.
Qed.
Lemma lstrip_length f s : List.length (lstrip f s) <= List.length s.
Proof. induction s as [|c s IH]; [reflexivity|]. cbn. destruct (f c); cbn; lia. Qed.
Lemma strip_length f s : List.length (strip f s) <= List.length s.
Proof.
  unfold strip. rewrite rev_length. etransitivity; [apply lstrip_length|]. rewrite rev_length. apply lstrip_length.
Qed.

(** A text that is not a uid raises ValueError, nothing else. *)
Theorem C42_errors iri e : uid_from_iri iri = Err e -> e = ValueError.
Proof.
  unfold uid_from_iri, uuid_of_text. set (h := remove_all (lit "-") _).
  destruct (Nat.eqb_spec (List.length h) 32) as [Hl|]; [|congruence].
  destruct (int16 h) as [n|] eqn:E; congruence.
Qed.
Print Assumptions C42_errors.

Theorem C42_range iri u : uid_from_iri iri = Ok u -> (u < 2 ^ 128)%N.
Proof.
  unfold uid_from_iri, uuid_of_text. set (h := remove_all (lit "-") _).
  destruct (Nat.eqb_spec (List.length h) 32) as [Hl|]; [|discriminate].
  destruct (int16 h) as [n|] eqn:E; [|discriminate]. intros [= <-].
  unfold int16 in E. apply hexdigits_bound in E.
  eapply N.lt_le_trans; [exact E|]. replace (2 ^ 128)%N with (16 ^ 32)%N by reflexivity.
  rewrite N.add_0_l, N.mul_1_l. apply N.pow_le_mono_r; [lia|].
  pose proof (strip_length is_blank h) as Hs. rewrite Hl in Hs.
  set (s1 := strip is_blank h) in *. 
  set (s2 := if startswith (lit "+") s1 then after (lit "+") s1 else s1).
  assert (List.length s2 <= 32) as H2.
  { subst s2. destruct (startswith (lit "+") s1); [|exact Hs]. unfold after. rewrite skipn_length. lia. }
  set (b := startswith (lit "0x") s2 || startswith (lit "0X") s2).
  destruct b; [|lia]. destruct (startswith (lit "_") (skipn 2 s2)); rewrite ?skipn_length; lia.
Qed.

(** The converse direction does not hold: several texts give the same uid
    (upper-case digits, missing hyphens, braces, another prefix of the same length),
    so that an object's uid does not determine the IRI it had. *)
Theorem C42_not_canonical_refuted :
  exists u i1 i2 i3 i4, (u < 2 ^ 128)%N /\
    uid_from_iri i1 = Ok u /\ uid_from_iri i2 = Ok u /\ uid_from_iri i3 = Ok u /\ uid_from_iri i4 = Ok u /\
    NoDup [i1; i2; i3; i4; iri_from_uid u].
Proof.
  exists 0xABCDEF0123456789abcdef0123456789%N,
    (cuds_prefix ++ lit "ABCDEF01-2345-6789-ABCD-EF0123456789"),
    (cuds_prefix ++ lit "abcdef0123456789abcdef0123456789"),
    (cuds_prefix ++ lit "{abcdef01-2345-6789-abcd-ef0123456789}"),
    (lit "http://www.not-core.com/cuds/#abcdef01-2345-6789-abcd-ef0123456789").
  split; [lia|]. do 4 (split; [vm_compute; reflexivity|]).
  repeat constructor; cbn [In]; intros H;
    repeat (destruct H as [H|H]; [vm_compute in H; discriminate H|]); exact H.
Qed.

(** * C31 *)

(** A term is proper if it is not mistaken for an object: a text starting with the
    prefix is the IRI of a uid. *)
Definition proper (t : term) : Prop :=
  startswith cuds_prefix (term_text t) = true ->
  exists u, (u < 2 ^ 128)%N /\ t = TIri (iri_from_uid u).
Definition names (u : N) (t : term) : Prop := t = TIri (iri_from_uid u).

Lemma subst_term_cuds from to u :
  (u < 2 ^ 128)%N ->
  subst_term from to (TIri (iri_from_uid u)) = Ok (TIri (iri_from_uid (if N.eqb u from then to else u))).
Proof.
  intros Hu. unfold subst_term. cbn [term_text].
  assert (startswith cuds_prefix (iri_from_uid u) = true) as -> by apply startswith_app.
  rewrite C42_roundtrip by exact Hu. now destruct (N.eqb u from).
Qed.
Lemma subst_term_other from to t :
  startswith cuds_prefix (term_text t) = false -> subst_term from to t = Ok t.
Proof. intros H. unfold subst_term. now rewrite H. Qed.

Lemma subst_roundtrip r t :
  (0 < r < 2 ^ 128)%N -> proper t -> ~ names 0 t ->
  exists t', subst_term r 0 t = Ok t' /\ subst_term 0 r t' = Ok t.
Proof.
  intros Hr Hp H0. destruct (startswith cuds_prefix (term_text t)) eqn:E.
  - destruct (Hp E) as (u & Hu & ->). rewrite subst_term_cuds by exact Hu. eexists. split; [reflexivity|].
    destruct (N.eqb_spec u r) as [->|Hne].
    + rewrite subst_term_cuds by reflexivity. reflexivity.
    + rewrite subst_term_cuds by exact Hu. destruct (N.eqb_spec u 0) as [->|_]; [|reflexivity].
      destruct H0. reflexivity.
  - exists t. now rewrite !subst_term_other.
Qed.

(** Storing a triple and loading it again gives the triple: for every root, and all
    triples of proper terms that do not contain the zero IRI. *)
Theorem C31_lossless r s p o :
  (0 < r < 2 ^ 128)%N -> proper s -> proper p -> proper o ->
  ~ names 0 s -> ~ names 0 p -> ~ names 0 o ->
  exists stored, substitute_root r (s, p, o) = Ok stored /\
    substitute_zero r stored = Ok (s, p, o).
Proof.
  intros Hr Ps Pp Po Ns Np No.
  destruct (subst_roundtrip r s Hr Ps Ns) as (s' & Es & Es').
  destruct (subst_roundtrip r p Hr Pp Np) as (p' & Ep & Ep').
  destruct (subst_roundtrip r o Hr Po No) as (o' & Eo & Eo').
  exists (s', p', o'). unfold substitute_root, substitute_zero, subst_triple.
  now rewrite Es, Ep, Eo, Es', Ep', Eo'.
Qed.

(** What is stored never mentions the root, and everything else is stored as it is. *)
Theorem C31_stored r s p o stored :
  (0 < r < 2 ^ 128)%N -> proper s -> proper p -> proper o ->
  substitute_root r (s, p, o) = Ok stored ->
  let '(s', p', o') := stored in
  (forall t, In t [s'; p'; o'] -> ~ names r t) /\
  Forall2 (fun x x' => (names r x -> names 0 x') /\ (~ names r x -> x' = x)) [s; p; o] [s'; p'; o'].
Proof.
  intros Hr Ps Pp Po.
  assert (forall t t', proper t -> subst_term r 0 t = Ok t' ->
            ~ names r t' /\ (names r t -> names 0 t') /\ (~ names r t -> t' = t)) as H.
  { intros t t' Hp Et. destruct (startswith cuds_prefix (term_text t)) eqn:E.
    - destruct (Hp E) as (u & Hu & ->). rewrite subst_term_cuds in Et by exact Hu. injection Et as <-.
      assert (forall a b, (a < 2 ^ 128)%N -> (b < 2 ^ 128)%N ->
                TIri (iri_from_uid a) = TIri (iri_from_uid b) -> a = b) as Hinj.
      { intros a b Ha Hb Hab. apply (f_equal term_text) in Hab. exact (C42_injective a b Ha Hb Hab). }
      destruct Hr as [Hr0 Hr]. assert (0 < 2 ^ 128)%N as H0 by reflexivity.
      destruct (N.eqb_spec u r) as [Hur|Hne]; unfold names; split.
      + intros H. apply (Hinj _ _ H0 Hr) in H. rewrite <- H in Hr0. discriminate Hr0.
      + split; [reflexivity|]. intros H. destruct H. now rewrite Hur.
      + intros H. apply (Hinj _ _ Hu Hr) in H. contradiction.
      + split; [|reflexivity]. intros H. apply (Hinj _ _ Hu Hr) in H. contradiction.
    - rewrite subst_term_other in Et by exact E. injection Et as <-. unfold names.
      assert (t <> TIri (iri_from_uid r)) as Hn.
      { intros ->. cbn [term_text] in E. unfold iri_from_uid in E. now rewrite startswith_app in E. }
      tauto. }
  unfold substitute_root, subst_triple.
  destruct (subst_term r 0 s) as [s'|] eqn:Es; [|discriminate].
  destruct (subst_term r 0 p) as [p'|] eqn:Ep; [|discriminate].
  destruct (subst_term r 0 o) as [o'|] eqn:Eo; [|discriminate].
  intros [= <-]. apply H in Es, Ep, Eo; [|assumption..]. split.
  - intros t [<-|[<-|[<-|[]]]]; tauto.
  - repeat constructor; tauto.
Qed.

(** The hypotheses are met: root 7 stores a link to object 9 and a literal. *)
Example C31_example :
  let root := TIri (iri_from_uid 7) in
  let rel := TIri (lit "http://www.osp-core.com/city#hasPart") in
  let o := TIri (iri_from_uid 9) in
  let l := TLit (lit "Freiburg") None (Some (lit "de")) in
  (proper root /\ proper rel /\ proper o /\ proper l) /\
  substitute_root 7 (root, rel, o) = Ok (TIri (iri_from_uid 0), rel, o) /\
  substitute_root 7 (o, rel, root) = Ok (o, rel, TIri (iri_from_uid 0)) /\
  substitute_root 7 (root, rel, l) = Ok (TIri (iri_from_uid 0), rel, l).
Proof.
  split; [|split; [|split]]; [|vm_compute; reflexivity..].
  split; [|split; [|split]].
  - intros _. exists 7%N. split; reflexivity.
  - intros H. vm_compute in H. discriminate H.
  - intros _. exists 9%N. split; reflexivity.
  - intros H. vm_compute in H. discriminate H.
Qed.

(** Literals are not excluded in the code.  A string attribute with the text of the
    root's IRI comes back as a link to the root; *)
Theorem C31_literal_refuted :
  exists r s p l stored o', (0 < r < 2 ^ 128)%N /\
    substitute_root r (s, p, TLit l None None) = Ok stored /\
    substitute_zero r stored = Ok (s, p, o') /\ o' <> TLit l None None /\ names r o'.
Proof.
  exists 7%N, (TIri (iri_from_uid 9)), (TIri (lit "http://x#name")), (iri_from_uid 7).
  eexists. eexists. split; [lia|]. split; [vm_compute; reflexivity|].
  split; [vm_compute; reflexivity|]. split; [discriminate|]. vm_compute. reflexivity.
Qed.
(** the zero IRI in a literal becomes a link to the root when it is loaded; *)
Theorem C31_zero_literal_refuted :
  exists r s p l o', (0 < r < 2 ^ 128)%N /\
    substitute_root r (s, p, TLit l None None) = Ok (s, p, o') /\
    substitute_zero r (s, p, TLit l None None) = Ok (s, p, TIri (iri_from_uid r)).
Proof.
  exists 7%N, (TIri (iri_from_uid 9)), (TIri (lit "http://x#name")), (iri_from_uid 0).
  eexists. split; [lia|]. split; vm_compute; reflexivity.
Qed.
(** any other text that starts with the prefix makes every commit fail. *)
Theorem C31_literal_raises_refuted :
  exists s p l, forall r, substitute_root r (s, p, TLit l None None) = Err ValueError.
Proof.
  exists (TIri (iri_from_uid 9)), (TIri (lit "http://x#name")), (cuds_prefix ++ lit "about").
  intros r. unfold substitute_root, subst_triple.
  assert (forall u, (u < 2 ^ 128)%N -> exists t, subst_term r 0 (TIri (iri_from_uid u)) = Ok t) as H.
  { intros u Hu. eexists. now apply subst_term_cuds. }
  destruct (H 9%N eq_refl) as [t ->]. rewrite (subst_term_other _ _ (TIri (lit "http://x#name"))) by reflexivity.
  reflexivity.
Qed.

Print Assumptions C42_roundtrip.
Print Assumptions C42_range.
Print Assumptions C31_lossless.
Print Assumptions C31_stored.
