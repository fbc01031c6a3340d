(** What a peer's frames can write (property C76): communication_utils.py:157-184
    [receive_files] and communication_engine.py:112-140 [_decode] for arbitrary
    frames. *)
From Coq Require Import List NArith ZArith Lia Bool Arith.
From Verif Require Import Prelude Utf8 Proto.
Import ListNotations.
Open Scope nat_scope.

(** ** Specification *)

(** A name that denotes an entry of the directory itself. *)
Definition plain_name (n : str) : Prop :=
  ~ In 47%N n /\ ~ In 0%N n /\ n <> [] /\ n <> [46%N] /\ n <> [46%N; 46%N].

(** The entry of a name in a dictionary, the latest first. *)
Inductive entry {A} (n : str) : list (str * A) -> A -> Prop :=
| entry_first a l : entry n ((n, a) :: l) a
| entry_later m b l a : m <> n -> entry n l a -> entry n ((m, b) :: l) a.

(** ** Model *)

(** communication_utils.py:157-184 [receive_files]: the directory when it returns or
    raises; what was received of an incomplete file is in the file.  An exception
    from decode_header or open leaves the directory as it was. *)
Fixpoint written (n : nat) (w : stream) (d : directory) : directory :=
  match n with
  | O => d
  | S n' =>
      match recv w with
      | Err _ => d
      | Ok (b, w1) =>
          match decode_header b LEN_FILES_HEADER with
          | Ok [EInt k; EStr fname] =>
              let name := basename fname in
              if name_ok name then
                match recv_n (Z.to_nat k) w1 with
                | Ok (content, w2) => written n' w2 ((name, content) :: d)
                | Err _ => (name, concat w1) :: d
                end
              else d
          | _ => d
          end
      end
  end.

(** ** Proofs *)
Lemma plain_basename p : name_ok (basename p) = true -> plain_name (basename p).
Proof.
  intros H. assert (S : forallb (fun c => negb (c =? 47)%N) (basename p) = true)
    by (apply basename_acc_result; reflexivity).
  unfold name_ok in H. apply andb_true_iff in H as [H1 H2]. rewrite forallb_forall in S, H2.
  split; [|split; [|split; [|split]]].
  - intros Hin. specialize (S _ Hin). discriminate.
  - intros Hin. specialize (H2 _ Hin). discriminate.
  - intros E. rewrite E in H1. discriminate.
  - intros E. rewrite E in H1. discriminate.
  - intros E. rewrite E in H1. discriminate.
Qed.

Lemma written_plain n : forall w d, Forall (fun f => plain_name (fst f)) d ->
  Forall (fun f => plain_name (fst f)) (written n w d).
Proof.
  induction n as [|n IH]; intros w d Hd; cbn [written]; [exact Hd|].
  destruct (recv w) as [[b w1]|]; [|exact Hd].
  destruct (decode_header b LEN_FILES_HEADER) as [[|[k|?] [|[?|fname] [|]]]|]; try exact Hd.
  destruct (name_ok (basename fname)) eqn:E; [|exact Hd]. apply plain_basename in E.
  destruct (recv_n (Z.to_nat k) w1) as [[content w2]|].
  - apply IH. constructor; assumption.
  - constructor; assumption.
Qed.

Lemma entry_app {A} (n : str) (l1 l2 : list (str * A)) a :
  entry n (l1 ++ l2) a <-> entry n l1 a \/ (~ In n (map fst l1) /\ entry n l2 a).
Proof.
  induction l1 as [|[m b] l1 IH]; cbn.
  - split; [intros E; right; split; [tauto|exact E]|]. intros [E|[_ E]]; [inversion E|exact E].
  - split.
    + intros E. inversion E as [x y|x y z t Hne E']; subst.
      * left. constructor.
      * apply IH in E' as [E'|[E1 E2]]; [left; constructor; assumption|].
        right. split; [|exact E2]. intros [?|?]; [congruence|tauto].
    + intros [E|[E1 E2]].
      * inversion E as [x y|x y z t Hne E']; subst; [constructor|]. constructor; [assumption|]. apply IH. left. exact E'.
      * constructor; [tauto|]. apply IH. right. split; [tauto|exact E2].
Qed.

Section Hash.
  Context {H : Type} (sha : bytes -> H).

  (** Names with the digests of their contents are the new hashes. *)
  Definition digests (d : directory) : list (str * H) := map (fun f => (fst f, sha (snd f))) d.

  Lemma receive_files_spec n : forall w d h w' d' h',
    receive_files sha n w d h = Ok (w', d', h') ->
    d' = written n w d /\
    (exists new, d' = new ++ d /\ h' = digests new ++ h /\ length new = n) /\
    exists used, w = used ++ w' /\
      forall rest, receive_files sha n (used ++ rest) d h = Ok (rest, d', h').
  Proof.
    induction n as [|n IH]; intros w d h w' d' h' E; cbn [receive_files written] in *.
    { injection E as <- <- <-. split; [reflexivity|]. split; [exists []; split; [reflexivity|split; reflexivity]|].
      exists []. split; reflexivity. }
    unfold receive_file in E at 1. destruct w as [|b w1]; cbn [recv] in *; [discriminate|].
    destruct (decode_header b LEN_FILES_HEADER) as [[|[k|?] [|[?|fname] [|]]]|] eqn:ED; try discriminate.
    destruct (name_ok (basename fname)) eqn:EN; [|discriminate].
    assert (RN : forall m x c x', recv_n m x = Ok (c, x') ->
              exists used, x = used ++ x' /\ forall rest, recv_n m (used ++ rest) = Ok (c, rest)).
    { clear. induction m as [|m IHm]; intros x c x' R; cbn in R.
      - injection R as <- <-. exists []. split; reflexivity.
      - destruct x as [|y x1]; [discriminate|]. cbn in R. destruct (recv_n m x1) as [[dd x2]|] eqn:Em; [|discriminate].
        injection R as <- <-. destruct (IHm _ _ _ Em) as (used & -> & Hu). exists (y :: used). split; [reflexivity|].
        intros rest. cbn. rewrite Hu. reflexivity. }
    destruct (recv_n (Z.to_nat k) w1) as [[content w2]|] eqn:ER; [|discriminate].
    destruct (RN _ _ _ _ ER) as (u1 & -> & Hu1).
    destruct (IH _ _ _ _ _ _ E) as (A & (new & B1 & B2 & B3) & used & -> & C).
    split; [exact A|]. split.
    - exists (new ++ [(basename fname, content)]). unfold digests. rewrite map_app, <- !app_assoc, app_length. cbn.
      split; [exact B1|]. split; [exact B2|lia].
    - exists (b :: u1 ++ used). split; [cbn; rewrite app_assoc; reflexivity|].
      intros rest. cbn [app receive_files]. unfold receive_file at 1. cbn [recv]. rewrite ED, EN.
      rewrite <- app_assoc, Hu1. apply C.
  Qed.

  Lemma entry_digests n d x : entry n (digests d) x <-> exists c, entry n d c /\ x = sha c.
  Proof.
    induction d as [|[m b] d IH]; cbn.
    - split; [intros E; inversion E|intros (c & E & _); inversion E].
    - split.
      + intros E. inversion E as [y z|y z t u Hne E']; subst.
        * exists b. split; [constructor|reflexivity].
        * apply IH in E' as (c & E1 & E2). exists c. split; [constructor; assumption|exact E2].
      + intros (c & E & ->). inversion E as [y z|y z t u Hne E']; subst; [constructor|].
        constructor; [assumption|]. apply IH. exists c. split; [exact E'|reflexivity].
  Qed.
End Hash.

(** ** Theorems *)

(** Whatever frames arrive, and whether or not receiving fails midway: every file
    written is an entry of the receiving directory itself. *)
Theorem C76_files_stay_inside : forall n w name content,
  In (name, content) (written n w []) -> plain_name name.
Proof.
  intros n w name content Hin. pose proof (written_plain n w [] (Forall_nil _)) as F.
  rewrite Forall_forall in F. exact (F _ Hin).
Qed.

(** A request that is decoded: the files are those written; afterwards the hash of a
    received file is that of its content, and no other hash is changed or added, so
    the server never believes to have what it did not receive; and the request is
    delimited by itself: whatever follows it is left alone and does not matter. *)
Theorem C76_request : forall (H : Type) (sha : bytes -> H) w known command data d known' w',
  server_decode sha w known = Ok (command, data, d, known', w') ->
  (forall name content, In (name, content) d -> plain_name name) /\
  (forall name x, entry name known' x <->
     (exists content, entry name d content /\ x = sha content) \/
     (~ In name (map fst d) /\ entry name known x)) /\
  exists used, w = used ++ w' /\
    forall following, server_decode sha (used ++ following) known = Ok (command, data, d, known', following).
Proof.
  intros H sha w known command data d known' w' E. unfold server_decode in E.
  destruct w as [|b w1]; cbn [recv] in E; [discriminate|].
  destruct (decode_header b LEN_HEADER) as [[|[v|?] [|[nb|?] [|[nf|?] [|[?|cmd] [|]]]]]|] eqn:ED; try discriminate.
  destruct (negb (v =? VERSION)%Z) eqn:EV; [discriminate|].
  destruct (join_message w1 (Z.to_nat nb)) as [[dat w2]|] eqn:EJ; [|discriminate].
  destruct (receive_files sha (Z.to_nat nf) w2 [] known) as [[[w3 d3] h3]|] eqn:ER; [|discriminate].
  injection E as <- <- <- <- <-.
  destruct (receive_files_spec sha _ _ _ _ _ _ _ ER) as (A & (new & B1 & B2 & B3) & used & -> & C).
  rewrite app_nil_r in B1. subst new.
  split. { intros name content Hin. rewrite A in Hin. eapply C76_files_stay_inside. exact Hin. }
  split.
  { intros name x. rewrite B2, entry_app, entry_digests. unfold digests. rewrite map_map.
    change (map (fun x0 : str * bytes => fst (fst x0, sha (snd x0))) d3) with (map fst d3). reflexivity. }
  unfold join_message in EJ. destruct (recv_n (Z.to_nat nb) w1) as [[dd w2']|] eqn:EN; [|discriminate].
  destruct (utf8_decode dd) eqn:EU; [|discriminate]. injection EJ as -> ->.
  assert (RN : forall m x c x', recv_n m x = Ok (c, x') ->
            exists used, x = used ++ x' /\ forall rest, recv_n m (used ++ rest) = Ok (c, rest)).
  { clear. induction m as [|m IHm]; intros x c x' R; cbn in R.
    - injection R as <- <-. exists []. split; reflexivity.
    - destruct x as [|y x1]; [discriminate|]. cbn in R. destruct (recv_n m x1) as [[dd x2]|] eqn:Em; [|discriminate].
      injection R as <- <-. destruct (IHm _ _ _ Em) as (used & -> & Hu). exists (y :: used). split; [reflexivity|].
      intros rest. cbn. rewrite Hu. reflexivity. }
  destruct (RN _ _ _ _ EN) as (u1 & -> & Hu1).
  exists (b :: u1 ++ used). split; [cbn; rewrite app_assoc; reflexivity|].
  intros following. unfold server_decode. cbn [app recv]. rewrite ED, EV. unfold join_message.
  rewrite <- app_assoc, Hu1, EU, C. reflexivity.
Qed.

(** A request of another version of the protocol is refused, whatever else it has. *)
Theorem C76_other_version : forall (H : Type) (sha : bytes -> H) v blocks files command b w known,
  command <> [] -> v <> 1%Z ->
  encode_header [EInt v; EInt blocks; EInt files; EStr command] LEN_HEADER = Ok b ->
  server_decode sha (b :: w) known = Err NotImplementedError.
Proof.
  intros H sha v nb nf cmd b w known Hc Hv Hb. apply header_roundtrip in Hb.
  destruct cmd as [|c cmd]; [congruence|]. unfold server_decode. cbn [recv]. rewrite Hb. unfold visible. cbn [filter].
  replace (v =? VERSION)%Z with false; [reflexivity|]. symmetry. apply Z.eqb_neq. exact Hv.
Qed.
Example C76_other_version_example : exists b,
  encode_header [EInt 2; EInt 0; EInt 0; EStr [120]%N] LEN_HEADER = Ok b.
Proof. eexists. vm_compute. reflexivity. Qed.

(** The same for the response on the client. *)
Theorem C76_response : forall (H : Type) (sha : bytes -> H) w data d w',
  client_decode sha w = Ok (data, d, w') ->
  (forall name content, In (name, content) d -> plain_name name) /\
  exists used, w = used ++ w' /\
    forall following, client_decode sha (used ++ following) = Ok (data, d, following).
Proof.
  intros H sha w data d w' E. unfold client_decode in E.
  destruct w as [|b w1]; cbn [recv] in E; [discriminate|].
  destruct (decode_header b LEN_HEADER) as [[|[v|?] [|[nb|?] [|[nf|?] [|]]]]|] eqn:ED; try discriminate.
  destruct (join_message w1 (Z.to_nat nb)) as [[dat w2]|] eqn:EJ; [|discriminate].
  destruct (receive_files sha (Z.to_nat nf) w2 [] []) as [[[w3 d3] h3]|] eqn:ER; [|discriminate].
  injection E as <- <- <-.
  destruct (receive_files_spec sha _ _ _ _ _ _ _ ER) as (A & (new & B1 & B2 & B3) & used & -> & C).
  split. { intros name content Hin. rewrite A in Hin. eapply C76_files_stay_inside. exact Hin. }
  unfold join_message in EJ. destruct (recv_n (Z.to_nat nb) w1) as [[dd w2']|] eqn:EN; [|discriminate].
  destruct (utf8_decode dd) eqn:EU; [|discriminate]. injection EJ as -> ->.
  assert (RN : forall m x c x', recv_n m x = Ok (c, x') ->
            exists used, x = used ++ x' /\ forall rest, recv_n m (used ++ rest) = Ok (c, rest)).
  { clear. induction m as [|m IHm]; intros x c x' R; cbn in R.
    - injection R as <- <-. exists []. split; reflexivity.
    - destruct x as [|y x1]; [discriminate|]. cbn in R. destruct (recv_n m x1) as [[dd x2]|] eqn:Em; [|discriminate].
      injection R as <- <-. destruct (IHm _ _ _ Em) as (used & -> & Hu). exists (y :: used). split; [reflexivity|].
      intros rest. cbn. rewrite Hu. reflexivity. }
  destruct (RN _ _ _ _ EN) as (u1 & -> & Hu1).
  exists (b :: u1 ++ used). split; [cbn; rewrite app_assoc; reflexivity|].
  intros following. unfold client_decode. cbn [app recv]. rewrite ED. unfold join_message.
  rewrite <- app_assoc, Hu1, EU, C. reflexivity.
Qed.

(** A malicious peer: the file "../../a" of two blocks is written to "a"; the
    connection is lost in the second file "/etc/b", of which one block came; ".." is
    refused. *)
Definition ex_up : str := [46; 46; 47; 46; 46; 47; 97]%N.
Definition ex_abs : str := [47; 101; 116; 99; 47; 98]%N.
Definition ex_head (k : Z) (name : str) : bytes :=
  match encode_header [EInt k; EStr name] LEN_FILES_HEADER with Ok b => b | Err _ => [] end.
Example C76_example :
  written 2 [ex_head 2 ex_up; [1]%N; [2]%N; ex_head 2 ex_abs; [3]%N] [] = [([98]%N, [3]%N); ([97]%N, [1; 2]%N)] /\
  written 1 [ex_head 1 [46; 46]%N; [1]%N] [] = [] /\
  (exists d known', server_decode (fun c => c)
     [match encode_header [EInt 1; EInt 0; EInt 1; EStr [120]%N] LEN_HEADER with Ok b => b | Err _ => [] end;
      ex_head 1 ex_up; [7]%N] [([98]%N, [9]%N)] = Ok ([120]%N, [], d, known', []) /\
     entry [97]%N known' [7]%N /\ entry [98]%N known' [9]%N).
Proof.
  split; [vm_compute; reflexivity|]. split; [vm_compute; reflexivity|].
  exists [([97]%N, [7]%N)], [([97]%N, [7]%N); ([98]%N, [9]%N)]. split; [vm_compute; reflexivity|].
  split; [constructor|]. constructor; [discriminate|constructor].
Qed.

Print Assumptions C76_files_stay_inside.
Print Assumptions C76_request.
Print Assumptions C76_response.
Print Assumptions C76_example.
Print Assumptions C76_other_version.
