(** C59: user information in connection URIs. *)
From Coq Require Import List Arith NArith Lia Bool String.
From Verif Require Import Prelude Utf8 Text Names Uri.
Import ListNotations.
Local Open Scope nat_scope.
Local Open Scope list_scope.
Local Arguments lower : simpl never.

(** ** Specification *)

(** a well-formed URI [scheme://netloc path ?query #fragment] *)
Definition make (scheme netloc path query frag : str) : str :=
  scheme ++ colon :: slash :: slash :: netloc ++ path ++
  (match query with [] => [] | _ => qmark :: query end) ++ (match frag with [] => [] | _ => hash :: frag end).

Definition without (cs : list N) (s : str) : Prop := forall c, In c cs -> ~ In c s.

(** a scheme: starts with a lower-case letter, then also digits, "+", "-", "." *)
Definition scheme_ok (s : str) : Prop :=
  exists x a, s = x :: a /\ is_lower x = true /\
    forall c, In c a -> is_lower c = true \/ is_digit c = true \/ In c [43; 45; 46]%N.
Record parts_ok (scheme host path query frag : str) : Prop := {
  po_scheme : scheme_ok scheme;
  po_host : host <> [] /\ without [at_sign; slash; qmark; hash; ldelim; rdelim] host;
  po_path : without [qmark; hash] path /\ (path = [] \/ exists p, path = slash :: p);
  po_query : without [hash] query;
  po_clean : forall c, In c (scheme ++ host ++ path ++ query ++ frag) -> unsafe c = false }.

(** user names and passwords without the delimiters of a URI *)
Definition user_ok (user : str) : Prop :=
  without [colon; at_sign; slash; qmark; hash; ldelim; rdelim] user /\ (forall c, In c user -> unsafe c = false).
Definition pw_ok (pw : str) : Prop :=
  without [at_sign; slash; qmark; hash; ldelim; rdelim] pw /\ (forall c, In c pw -> unsafe c = false).
Definition creds (user : str) (pw : option str) : str :=
  user ++ match pw with Some p => colon :: p | None => [] end.

(** ** Text lemmas *)
Lemma cut_app P a c s : (forall x, In x a -> P x = false) -> P c = true -> cut P (a ++ c :: s) = (a, c :: s).
Proof.
  intros Ha Hc. induction a as [|x a IH]; cbn; [now rewrite Hc|].
  rewrite (Ha x (or_introl eq_refl)), IH; [reflexivity|]. intros y Hy. apply Ha. now right.
Qed.
Lemma cut_all P a : (forall x, In x a -> P x = false) -> cut P a = (a, []).
Proof.
  intros Ha. induction a as [|x a IH]; cbn; [reflexivity|].
  rewrite (Ha x (or_introl eq_refl)), IH; [reflexivity|]. intros y Hy. apply Ha. now right.
Qed.
Lemma noteq c x a : ~ In c a -> In x a -> N.eqb c x = false.
Proof. intros H1 H2. apply N.eqb_neq. intros ->. contradiction. Qed.
Lemma partition_app c a s : ~ In c a -> partition c (a ++ c :: s) = (a, Some s).
Proof.
  intros H. unfold partition. rewrite cut_app; [reflexivity| |apply N.eqb_refl]. intros x Hx. eapply noteq; eauto.
Qed.
Lemma partition_none c a : ~ In c a -> partition c a = (a, None).
Proof. intros H. unfold partition. rewrite cut_all; [reflexivity|]. intros x Hx. eapply noteq; eauto. Qed.
Lemma rpartition_app c a s : ~ In c s -> rpartition c (a ++ c :: s) = (Some a, s).
Proof.
  intros H. unfold rpartition. rewrite rev_app_distr. cbn. rewrite <- app_assoc. cbn.
  rewrite partition_app; [now rewrite !rev_involutive|]. now rewrite <- in_rev.
Qed.
Lemma rpartition_none c s : ~ In c s -> rpartition c s = (None, s).
Proof.
  intros H. unfold rpartition. rewrite partition_none; [now rewrite rev_involutive|]. now rewrite <- in_rev.
Qed.
Lemma filter_all {A} (f : A -> bool) l : (forall x, In x l -> f x = true) -> filter f l = l.
Proof.
  intros H. induction l as [|x l IH]; cbn; [reflexivity|]. rewrite (H x (or_introl eq_refl)), IH; [reflexivity|].
  intros y Hy. apply H. now right.
Qed.
Lemma has_false c s : ~ In c s -> has c s = false.
Proof.
  intros H. unfold has. apply not_true_is_false. intros E. apply existsb_exists in E as (x & Hx & E).
  apply N.eqb_eq in E. now subst.
Qed.
Lemma low1_id c : is_lower c = true \/ is_digit c = true \/ In c [43; 45; 46]%N -> low1 c = c /\ scheme_char c = true.
Proof.
  intros H. unfold low1. assert (Hu : is_upper c = false).
  { unfold is_upper, is_lower, is_digit in *.
    destruct H as [H|[H|H]].
    - apply andb_true_iff in H as [H1 H2]. apply N.leb_le in H1, H2. apply andb_false_iff. right. apply N.leb_gt. lia.
    - apply andb_true_iff in H as [H1 H2]. apply N.leb_le in H1, H2. apply andb_false_iff. left. apply N.leb_gt. lia.
    - cbn in H. repeat destruct H as [<-|H]; try reflexivity. destruct H. }
  rewrite Hu. split; [reflexivity|]. unfold scheme_char. rewrite Hu. destruct H as [->|[->|H]]; rewrite ?orb_true_r; auto.
  cbn in H. repeat destruct H as [<-|H]; rewrite ?orb_true_r; try reflexivity. destruct H.
Qed.

(** ** Parsing a well-formed URI *)
Lemma urlsplit_make scheme netloc path query frag :
  scheme_ok scheme -> without [slash; qmark; hash; ldelim; rdelim] netloc ->
  without [qmark; hash] path -> (path = [] \/ exists p, path = slash :: p) -> without [hash] query ->
  (forall c, In c (scheme ++ netloc ++ path ++ query ++ frag) -> unsafe c = false) ->
  urlsplit (make scheme netloc path query frag) = Ok (Parsed scheme netloc path query frag).
Proof.
  intros (x & a & -> & Hx & Ha) Hn Hp Hp' Hq Hc. unfold urlsplit.
  assert (Hl : lstrip (make (x :: a) netloc path query frag) = make (x :: a) netloc path query frag).
  { unfold make. cbn. assert (Hb : blank x = false).
    { unfold blank, is_lower in *. apply andb_true_iff in Hx as [H1 H2]. apply N.leb_le in H1. apply N.leb_gt. lia. }
    now rewrite Hb. }
  rewrite Hl, filter_all.
  2:{ intros c Hi. apply negb_true_iff. unfold make in Hi.
      assert (K : In c ((x :: a) ++ netloc ++ path ++ query ++ frag) \/ c = colon \/ c = slash \/ c = qmark \/ c = hash).
      { rewrite !in_app_iff in *. cbn [In] in Hi. rewrite !in_app_iff in Hi.
        destruct Hi as [Hi|[<-|[<-|[<-|[Hi|[Hi|[Hi|Hi]]]]]]]; auto 8.
        - destruct query; [destruct Hi|]. destruct Hi as [<-|Hi]; auto 10.
        - destruct frag; [destruct Hi|]. destruct Hi as [<-|Hi]; auto 10. }
      destruct K as [K|[->|[->|[->| ->]]]]; [now apply Hc|reflexivity..]. }
  assert (Hsch : forall c, In c (x :: a) -> low1 c = c /\ scheme_char c = true).
  { intros c [<-|Hi]; apply low1_id; auto. }
  unfold make at 1. rewrite cut_app; [|intros c Hi|apply N.eqb_refl].
  2:{ apply N.eqb_neq. intros <-. destruct (Hsch _ Hi) as [_ K]. discriminate K. }
  rewrite Hx, orb_true_r. cbn [andb].
  assert (Hf : forallb scheme_char (x :: a) = true).
  { apply forallb_forall. intros c Hi. now apply Hsch. }
  rewrite Hf. assert (Hlow : lower (x :: a) = x :: a).
  { unfold lower. clear -Hsch. induction (x :: a) as [|y l IH]; cbn; [reflexivity|].
    rewrite (proj1 (Hsch y (or_introl eq_refl))), IH; [reflexivity|]. intros c Hi. apply Hsch. now right. }
  rewrite Hlow, !N.eqb_refl. cbn [andb].
  set (rest := path ++ (match query with [] => [] | _ => qmark :: query end) ++ (match frag with [] => [] | _ => hash :: frag end)).
  assert (Hcut : cut (fun c => N.eqb c slash || N.eqb c qmark || N.eqb c hash) (netloc ++ rest) = (netloc, rest)).
  { assert (Hn' : forall y, In y netloc -> (N.eqb y slash || N.eqb y qmark || N.eqb y hash) = false).
    { intros y Hy. rewrite !orb_false_iff, !N.eqb_neq. repeat split; intros ->;
        [apply (Hn slash)|apply (Hn qmark)|apply (Hn hash)]; auto; cbn; auto. }
    assert (Hr : rest = [] \/ exists c r, rest = c :: r /\ (N.eqb c slash || N.eqb c qmark || N.eqb c hash) = true).
    { unfold rest. destruct Hp' as [->|(p & ->)]; [|right; cbn; eauto].
      destruct query; cbn; [|right; eauto]. destruct frag; cbn; [now left|right; eauto]. }
    destruct Hr as [->|(c & r & -> & K)]; [rewrite app_nil_r; now apply cut_all|now apply cut_app]. }
  rewrite Hcut, (has_false ldelim), (has_false rdelim) by (apply Hn; cbn; tauto). cbn [Bool.eqb negb].
  assert (Hph : forall s, without [hash] s -> forall f, partition hash (s ++ match f with [] => [] | _ => hash :: f end) =
     (s, match f with [] => None | _ => Some f end)).
  { intros s Hs f. destruct f; [rewrite app_nil_r; now apply partition_none, Hs; left|]. apply partition_app, Hs. now left. }
  unfold rest. rewrite app_assoc, Hph.
  2:{ intros c [<-|[]] Hi. apply in_app_iff in Hi as [Hi|Hi]; [apply (Hp hash); cbn; auto|].
      destruct query; [destruct Hi|]. destruct Hi as [Hi|Hi]; [discriminate Hi|]. apply (Hq hash); cbn; auto. }
  assert (Hpq : partition qmark (path ++ match query with [] => [] | _ => qmark :: query end) =
     (path, match query with [] => None | _ => Some query end)).
  { destruct query as [|y q]; [rewrite app_nil_r; apply partition_none|apply partition_app]; apply Hp; now left. }
  destruct frag; rewrite Hpq; now destruct query.
Qed.

Lemma urlunsplit_make scheme netloc path query frag :
  scheme <> [] -> netloc <> [] -> (path = [] \/ exists p, path = slash :: p) ->
  urlunsplit (Parsed scheme netloc path query frag) = make scheme netloc path query frag.
Proof.
  intros Hs Hn Hp. unfold urlunsplit. cbn [p_scheme p_netloc p_path p_query p_frag].
  destruct netloc as [|n0 n]; [congruence|]. destruct scheme as [|s0 s]; [congruence|].
  change (str_eqb (n0 :: n) []) with false. change (str_eqb (s0 :: s) []) with false. cbn [negb orb].
  assert (Hpath : (match path with [] => [] | c :: _ => if N.eqb c slash then path else slash :: path end) = path).
  { destruct Hp as [->|(p & ->)]; [reflexivity|]. now rewrite N.eqb_refl. }
  rewrite Hpath. unfold make.
  destruct query as [|q0 q]; destruct frag as [|f0 f]; cbn [str_eqb app]; rewrite ?app_nil_r, <- ?app_assoc; cbn [app];
    rewrite <- ?app_assoc; cbn [app]; reflexivity.
Qed.

(** ** Theorems *)

(** A URI without user information is used as it is. *)
Theorem C59_plain : forall scheme host path query frag,
  parts_ok scheme host path query frag ->
  parse_uri (Some (make scheme host path query frag)) = Ok (Some (make scheme host path query frag), None, None).
Proof.
  intros scheme host path query frag [H1 [H2 H2'] [H3 H3'] H4 H5]. unfold parse_uri.
  rewrite urlsplit_make; auto. 2:{ intros c Hc. apply H2'. now right. }
  unfold userinfo. cbn [p_netloc]. rewrite rpartition_none; [|apply H2'; now left]. cbn.
  rewrite urlunsplit_make; auto. destruct H1 as (x & a & -> & _). discriminate.
Qed.

(** User name and password are taken out of the URI and nothing else changes. *)
Theorem C59_userinfo : forall scheme host path query frag user pw,
  parts_ok scheme host path query frag -> user_ok user ->
  (forall p, pw = Some p -> pw_ok p) -> (user <> [] \/ exists p, pw = Some p /\ p <> []) ->
  parse_uri (Some (make scheme (creds user pw ++ at_sign :: host) path query frag)) =
    Ok (Some (make scheme host path query frag), Some user, pw).
Proof.
  intros scheme host path query frag user pw [H1 [H2 H2'] [H3 H3'] H4 H5] [U1 U2] P Hne. unfold parse_uri.
  assert (Hcr : without [at_sign; slash; qmark; hash; ldelim; rdelim] (creds user pw)).
  { intros c Hc Hi. unfold creds in Hi. apply in_app_iff in Hi as [Hi|Hi].
    - apply (U1 c); [now right|exact Hi].
    - destruct pw as [p|]; [|destruct Hi]. destruct Hi as [<-|Hi].
      + cbn in Hc. repeat destruct Hc as [Hc|Hc]; try discriminate Hc. destruct Hc.
      + exact (proj1 (P p eq_refl) c Hc Hi). }
  rewrite urlsplit_make; auto.
  2:{ intros c Hc Hi. apply in_app_iff in Hi as [Hi|[<-|Hi]].
      - apply (Hcr c); [now right|exact Hi].
      - cbn in Hc. repeat destruct Hc as [Hc|Hc]; try discriminate Hc. destruct Hc.
      - apply (H2' c); [now right|exact Hi]. }
  2:{ intros c Hi. rewrite !in_app_iff in Hi. cbn [In] in Hi.
      destruct Hi as [Hi|[[Hi|[<-|Hi]]|Hi]].
      - apply H5. rewrite in_app_iff. now left.
      - unfold creds in Hi. apply in_app_iff in Hi as [Hi|Hi]; [now apply U2|].
        destruct pw as [p|]; [|destruct Hi]. destruct Hi as [<-|Hi]; [reflexivity|]. now apply (proj2 (P p eq_refl)).
      - reflexivity.
      - apply H5. rewrite !in_app_iff. tauto.
      - apply H5. rewrite !in_app_iff. tauto. }
  unfold userinfo. cbn [p_netloc p_scheme p_path p_query p_frag]. rewrite rpartition_app; [|apply H2'; now left].
  assert (Hpt : partition colon (creds user pw) = (user, pw)).
  { unfold creds. destruct pw as [p|].
    - apply partition_app. apply U1. now left.
    - rewrite app_nil_r. apply partition_none. apply U1. now left. }
  rewrite Hpt. assert (Ht : (truthy (Some user) || truthy pw) = true).
  { destruct Hne as [Hne|(p & -> & Hne)]; [destruct user; [congruence|reflexivity]|].
    destruct p; [congruence|]. apply orb_true_r. }
  rewrite Ht, split_on_app by (apply Hcr; now left).
  rewrite split_on_nosep by (apply H2'; now left). cbn [nth_error].
  rewrite urlunsplit_make; auto. destruct H1 as (x & a & -> & _). discriminate.
Qed.

(** The hypotheses are met. *)
Example C59_example :
  parts_ok (lit "wss") (lit "host.org:4587") (lit "/db") (lit "a=b?c") (lit "f") /\
  user_ok (lit "user") /\ pw_ok (lit "pass:word") /\
  make (lit "wss") (creds (lit "user") (Some (lit "pass:word")) ++ at_sign :: lit "host.org:4587") (lit "/db") (lit "a=b?c") (lit "f")
    = lit "wss://user:pass:word@host.org:4587/db?a=b?c#f" /\
  parse_uri (Some (lit "wss://user:pass:word@host.org:4587/db?a=b?c#f")) =
    Ok (Some (lit "wss://host.org:4587/db?a=b?c#f"), Some (lit "user"), Some (lit "pass:word")).
Proof.
  assert (W : forall l s, forallb (fun c => negb (existsb (N.eqb c) s)) l = true -> without l s).
  { intros l s H c Hc Hi. rewrite forallb_forall in H. apply H in Hc. apply negb_true_iff in Hc.
    assert (K : existsb (N.eqb c) s = true) by (apply existsb_exists; exists c; split; [exact Hi|apply N.eqb_refl]). congruence. }
  assert (U : forall s, forallb (fun c => negb (unsafe c)) s = true -> forall c, In c s -> unsafe c = false).
  { intros s H c Hi. rewrite forallb_forall in H. now apply negb_true_iff, H. }
  split; [|split; [|split; [|split; reflexivity]]].
  - constructor.
    + exists 119%N, (lit "ss"). split; [reflexivity|]. split; [reflexivity|]. intros c [<-|[<-|[]]]; now left.
    + split; [discriminate|]. now apply W.
    + split; [now apply W|]. right. now exists (lit "db").
    + now apply W.
    + now apply U.
  - split; [now apply W|now apply U].
  - split; [now apply W|now apply U].
Qed.

(** Refuted: a raw "@" in the password (which urllib accepts, and reports as part
    of the password) makes the client connect to another host, named by a part of
    the password. *)
Theorem C59_password_at_refuted :
  parse_uri (Some (lit "ws://user:se@cret@host.org:4587")) =
    Ok (Some (lit "ws://cret"), Some (lit "user"), Some (lit "se@cret")).
Proof. reflexivity. Qed.
(** Refuted: empty user information stays in the URI. *)
Theorem C59_empty_userinfo_refuted :
  parse_uri (Some (lit "ws://@host.org:4587")) = Ok (Some (lit "ws://@host.org:4587"), Some [], None).
Proof. reflexivity. Qed.

Print Assumptions C59_plain.
Print Assumptions C59_userinfo.
Print Assumptions C59_example.
Print Assumptions C59_password_at_refuted.
Print Assumptions C59_empty_userinfo_refuted.
