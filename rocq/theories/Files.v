(** File transfer: the hash filter and the naming of files.
    osp/core/session/transport/transport_utils.py (check_hash, move_files,
    _convert_path_of_file_cuds) and communication_utils.py (filter_files). *)
From stdpp Require Import base list gmap countable.
From Verif Require Import Prelude Utf8 Proto.

Section Hash.
  (** [sha] stands for the sha256 hex digest of a file's content
      (transport_utils.py:386-403, read in chunks of 4096 bytes). *)
  Context {H : Type} `{EqDecision H} (sha : bytes -> H).

  (** transport_utils.py:363-383 [check_hash]: the result and the updated
      dictionary.  The parameter [content] is the content of the file at
      [path]. *)
  Definition check_hash (path : str) (content : bytes) (hs : gmap str H)
    : bool * gmap str H :=
    let d := sha content in
    let name := basename path in
    match hs !! name with
    | Some d' => if decide (d' = d) then (true, hs) else (false, <[name := d]> hs)
    | None => (false, <[name := d]> hs)
    end.

  (** communication_utils.py:108-127 [filter_files].  [disk] maps paths to the
      contents of existing regular files (paths of directories, for which
      reading raises, are not modelled). Result: the files to send with their
      contents, and the updated hashes. *)
  Fixpoint filter_files (disk : str -> option bytes) (files : list str)
    (hs : gmap str H) : list file * gmap str H :=
    match files with
    | [] => ([], hs)
    | f :: fs =>
        match disk f with
        | None => filter_files disk fs hs
        | Some content =>
            let '(known, hs1) := check_hash f content hs in
            let '(rest, hs2) := filter_files disk fs hs1 in
            (if known then rest else (f, content) :: rest, hs2)
        end
    end.

  (** *** Specification

      [peer] is what the other side holds: for each file name the content of
      the last version that was transmitted under that name. *)
  Definition deliver1 (peer : gmap str bytes) (f : file) : gmap str bytes :=
    <[basename (fst f) := snd f]> peer.
  Definition deliver (sent : list file) (peer : gmap str bytes) : gmap str bytes :=
    foldl deliver1 peer sent.

  (** What the peer would hold if nothing were ever filtered out. *)
  Fixpoint announce (disk : str -> option bytes) (files : list str)
    (peer : gmap str bytes) : gmap str bytes :=
    match files with
    | [] => peer
    | f :: fs => match disk f with
                 | None => announce disk fs peer
                 | Some c => announce disk fs (deliver1 peer (f, c))
                 end
    end.

  (** The events on one connection, seen from the server: the client announces
      at initialisation the files of its directory, the client uploads files
      (receive_files stores the hash, communication_utils.py:172-184), the
      server answers with files (communication_engine.py:92). *)
  Inductive fevent :=
  | Announce (name : str) (c : bytes)    (* _init_session, "hashes" *)
  | Upload (name : str) (c : bytes)      (* receive_files *)
  | Respond (disk : str -> option bytes) (files : list str).

  Record fstate := FS { fs_hashes : gmap str H; fs_peer : gmap str bytes }.

  Definition fstep (s : fstate) (e : fevent) : fstate :=
    match e with
    | Announce n c | Upload n c =>
        FS (<[n := sha c]> (fs_hashes s)) (<[n := c]> (fs_peer s))
    | Respond disk files =>
        let '(sent, hs) := filter_files disk files (fs_hashes s) in
        FS hs (deliver sent (fs_peer s))
    end.

  (** The same history without any filter. *)
  Definition fstep_nofilter (peer : gmap str bytes) (e : fevent) : gmap str bytes :=
    match e with
    | Announce n c | Upload n c => <[n := c]> peer
    | Respond disk files => announce disk files peer
    end.

  Definition finit : fstate := FS ∅ ∅.

  Definition hash_inv (s : fstate) : Prop := fs_hashes s = sha <$> fs_peer s.

  Lemma filter_files_inv disk files hs peer :
    (forall a b, sha a = sha b -> a = b) ->
    hs = sha <$> peer ->
    let '(sent, hs') := filter_files disk files hs in
    hs' = sha <$> deliver sent peer /\ deliver sent peer = announce disk files peer.
  Proof.
    intros Hinj. revert hs peer.
    induction files as [|f fs IH]; intros hs peer Heq; simpl; [done|].
    destruct (disk f) as [c|]; [|by apply IH].
    unfold check_hash. subst hs. rewrite lookup_fmap.
    destruct (peer !! basename f) as [c'|] eqn:Ep; simpl.
    - destruct (decide (sha c' = sha c)) as [Es|Es].
      + apply Hinj in Es as ->.
        specialize (IH (sha <$> peer) peer eq_refl).
        destruct (filter_files disk fs (sha <$> peer)) as [sent hs'].
        destruct IH as [-> IH]. split; [done|]. rewrite IH.
        unfold deliver1; simpl. by rewrite insert_id.
      + rewrite <- fmap_insert.
        specialize (IH _ (<[basename f := c]> peer) eq_refl).
        destruct (filter_files disk fs _) as [sent hs'].
        destruct IH as [-> IH]. split; [done|exact IH].
    - rewrite <- fmap_insert.
      specialize (IH _ (<[basename f := c]> peer) eq_refl).
      destruct (filter_files disk fs _) as [sent hs'].
      destruct IH as [-> IH]. split; [done|exact IH].
  Qed.

  Lemma fstep_inv s e :
    (forall a b, sha a = sha b -> a = b) ->
    hash_inv s ->
    hash_inv (fstep s e) /\ fs_peer (fstep s e) = fstep_nofilter (fs_peer s) e.
  Proof.
    intros Hinj Hs. destruct e as [n c|n c|disk files]; simpl.
    - split; [|done]. unfold hash_inv; simpl. rewrite Hs. by rewrite fmap_insert.
    - split; [|done]. unfold hash_inv; simpl. rewrite Hs. by rewrite fmap_insert.
    - pose proof (filter_files_inv disk files (fs_hashes s) (fs_peer s) Hinj Hs) as Hf.
      destruct (filter_files disk files (fs_hashes s)) as [sent hs].
      destruct Hf as [H1 H2]. split; [exact H1|exact H2].
  Qed.

  (** For every history the filter is invisible: the peer ends up with exactly
      the files it would have without it. *)
  Lemma filter_transparent evs :
    (forall a b, sha a = sha b -> a = b) ->
    fs_peer (foldl fstep finit evs) = foldl fstep_nofilter ∅ evs.
  Proof.
    intros Hinj.
    assert (Hgen : forall s, hash_inv s ->
              fs_peer (foldl fstep s evs) = foldl fstep_nofilter (fs_peer s) evs).
    { induction evs as [|e evs IH]; intros s Hs; simpl; [done|].
      destruct (fstep_inv s e Hinj Hs) as [H1 H2]. rewrite IH by done. by rewrite H2. }
    apply (Hgen finit). unfold hash_inv; simpl. by rewrite fmap_empty.
  Qed.

  Lemma reach_inv evs :
    (forall a b, sha a = sha b -> a = b) -> hash_inv (foldl fstep finit evs).
  Proof.
    intros Hinj.
    assert (Hgen : forall s, hash_inv s -> hash_inv (foldl fstep s evs)).
    { induction evs as [|e evs IH]; intros s Hs; simpl; [done|].
      apply IH. by apply fstep_inv. }
    apply Hgen. unfold hash_inv; simpl. by rewrite fmap_empty.
  Qed.

  (** An existing file that is not sent is already at the peer, byte for byte. *)
  Lemma not_sent_known evs path disk c :
    (forall a b, sha a = sha b -> a = b) ->
    disk path = Some c ->
    let s := foldl fstep finit evs in
    fst (filter_files disk [path] (fs_hashes s)) = [] <->
    fs_peer s !! basename path = Some c.
  Proof.
    intros Hinj Hd. pose proof (reach_inv evs Hinj) as Hs.
    set (s := foldl fstep finit evs) in *. cbv zeta.
    simpl. rewrite Hd. unfold check_hash. rewrite Hs, lookup_fmap.
    destruct (fs_peer s !! basename path) as [c'|]; simpl.
    - destruct (decide (sha c' = sha c)) as [E|E]; simpl.
      + apply Hinj in E as ->. done.
      + split; [done|]. intros [= ->]. done.
    - done.
  Qed.
End Hash.

(** ** Naming of files *)

(** transport_utils.py:430-442 [_determine_path_type_of_file_cuds] and
    406-427 [_convert_path_of_file_cuds] for [os.name == 'posix']. *)
Definition has_char (c : N) (s : str) : bool := existsb (N.eqb c) s.
Definition replace_char (a b : N) (s : str) : str :=
  map (fun c => if (c =? a)%N then b else c) s.
Definition convert_path_posix (p : str) : res str :=
  let bs := has_char 92 p in
  let sl := has_char 47 p in
  if bs && negb sl then Ok (replace_char 92 47 p)
  else if sl && negb bs then Ok p
  else if negb sl && negb bs then Ok p
  else Err (OtherError 0).

(** [os.path.join(d, b)] for a relative [b]. *)
Definition path_join (d b : str) : str :=
  match rev d with
  | [] => b
  | c :: _ => if (c =? 47)%N then d ++ b else d ++ 47%N :: b
  end.

Fixpoint starts_with (p s : str) : bool :=
  match p, s with
  | [], _ => true
  | a :: p', b :: s' => (a =? b)%N && starts_with p' s'
  | _ :: _, [] => false
  end.

(** transport_utils.py:149-150: the name under which the file of the object
    with hex-uid [u] is stored. *)
Definition target_name (u base : str) : str :=
  if starts_with u base then base else u ++ 45%N :: base.

(** A file CUDS object: its uid in hex and its path attribute. *)
Record fcuds := FC { fc_uid : str; fc_path : str }.

(** transport_utils.py:124-180 [move_files], one object.  The disk maps paths
    to contents; [tdir_exists] says whether the target directory exists.
    Simplification: [os.path.samefile] is equality of paths (no links).
    Result: new disk, the object with its new path, the moved path if any. *)
Definition move_file (tdir_exists : bool) (temp : option str) (target : str)
  (disk : gmap str bytes) (c : fcuds)
  : res (gmap str bytes * fcuds * option str) :=
  match convert_path_posix (fc_path c) with
  | Err e => Err e
  | Ok path0 =>
      let base := basename path0 in
      let path := match temp with Some t => path_join t base | None => path0 end in
      let tp := path_join target (target_name (fc_uid c) base) in
      match disk !! path with
      | Some content =>
          if tdir_exists && negb (bool_decide (is_Some (disk !! tp))
                                  && bool_decide (path = tp))
          then Ok (<[tp := content]> disk, FC (fc_uid c) tp, Some tp)
          else Ok (disk, c, None)
      | None => Ok (disk, c, None)
      end
  end.

Lemma starts_with_app u s : starts_with u (u ++ s) = true.
Proof. induction u as [|c u IH]; simpl; [done|]. by rewrite N.eqb_refl. Qed.

Lemma starts_with_spec p s : starts_with p s = true <-> exists r, s = p ++ r.
Proof.
  split.
  - revert s; induction p as [|a p IH]; intros s Hs; simpl in *; [eauto|].
    destruct s as [|b s]; [done|]. apply andb_true_iff in Hs as [Hab Hs].
    apply N.eqb_eq in Hab as ->. apply IH in Hs as [r ->]. eauto.
  - intros [r ->]. apply starts_with_app.
Qed.

Lemma target_name_prefix u b : exists r, target_name u b = u ++ r.
Proof.
  unfold target_name. destruct (starts_with u b) eqn:E; [|eauto].
  by apply starts_with_spec in E.
Qed.

Lemma target_name_idem u b : target_name u (target_name u b) = target_name u b.
Proof.
  destruct (target_name_prefix u b) as [r Hr].
  unfold target_name at 1. rewrite Hr, starts_with_app. reflexivity.
Qed.

Lemma target_name_uid_inj u1 u2 b1 b2 :
  length u1 = length u2 -> target_name u1 b1 = target_name u2 b2 -> u1 = u2.
Proof.
  intros Hl Heq.
  destruct (target_name_prefix u1 b1) as [r1 H1].
  destruct (target_name_prefix u2 b2) as [r2 H2].
  rewrite H1, H2 in Heq. by apply app_inj_1 in Heq as [-> _].
Qed.

Lemma path_join_inj d b1 b2 : path_join d b1 = path_join d b2 -> b1 = b2.
Proof.
  unfold path_join. destruct (rev d) as [|c r]; [done|].
  destruct (c =? 47)%N; intros Heq.
  - by apply app_inv_head in Heq.
  - apply app_inv_head in Heq. congruence.
Qed.

(** Moving the file of one object never overwrites the stored file of another
    object in the target directory. *)
Lemma move_file_frame te temp target disk c disk' c' mv u name :
  move_file te temp target disk c = Ok (disk', c', mv) ->
  length u = length (fc_uid c) -> u <> fc_uid c ->
  starts_with u name = true ->
  disk' !! path_join target name = disk !! path_join target name.
Proof.
  unfold move_file. destruct (convert_path_posix (fc_path c)) as [p|]; [|done].
  intros Hm Hl Hne Hs. set (path := match temp with Some _ => _ | None => _ end) in *.
  destruct (disk !! path) as [content|]; [|by simplify_eq].
  destruct (te && _); simplify_eq; [|done].
  rewrite lookup_insert_ne; [done|]. intros Heq. apply path_join_inj in Heq.
  apply Hne. apply starts_with_spec in Hs as [r Hr].
  destruct (target_name_prefix (fc_uid c) (basename p)) as [r2 Hr2].
  rewrite Hr2, Hr in Heq. by apply app_inj_1 in Heq as [-> _].
Qed.

(** Every other path of the disk is untouched; if the file moved, the object's
    path is the target path and holds the content of the source. *)
Lemma move_file_spec te temp target disk c disk' c' tp :
  move_file te temp target disk c = Ok (disk', c', Some tp) ->
  fc_path c' = tp /\ fc_uid c' = fc_uid c /\
  (exists name, tp = path_join target name /\ starts_with (fc_uid c) name = true) /\
  is_Some (disk' !! tp) /\
  (forall q, q <> tp -> disk' !! q = disk !! q).
Proof.
  unfold move_file. destruct (convert_path_posix (fc_path c)) as [p|]; [|done].
  intros Hm. set (path := match temp with Some _ => _ | None => _ end) in *.
  destruct (disk !! path) as [content|]; [|done].
  destruct (te && _); simplify_eq. repeat split.
  - eexists; split; [done|].
    destruct (target_name_prefix (fc_uid c) (basename p)) as [r ->].
    apply starts_with_app.
  - rewrite lookup_insert. eauto.
  - intros q Hq. by rewrite lookup_insert_ne.
Qed.

(** ** The client receiving a file object from the server

    communication_engine.py:213-226 (fresh temporary directory [t], the sent
    files are stored there under their base names) followed by
    transport_utils.py:104-111 ([move_files] of the received object from [t]
    to the client's file destination). *)
Definition client_receive (t target : str) (disk : gmap str bytes)
  (sent : list file) (c : fcuds) : res (gmap str bytes * fcuds * option str) :=
  let disk1 := foldl (fun d f => <[path_join t (basename (fst f)) := snd f]> d)
                 disk sent in
  move_file true (Some t) target disk1 c.

(** One response carrying the file object [c] (whose path attribute is the path
    on the server), as in communication_engine.py:84-103. *)
Definition download {H} `{EqDecision H} (sha : bytes -> H)
  (sdisk : str -> option bytes) (t target : str)
  (hs : gmap str H) (disk : gmap str bytes) (c : fcuds)
  : gmap str H * res (gmap str bytes * fcuds * option str) :=
  let '(sent, hs') := filter_files sha sdisk [fc_path c] hs in
  (hs', client_receive t target disk sent c).

(** If the file is transmitted, the client's object points to a local file with
    the server's content. *)
Lemma download_sent {H} `{EqDecision H} (sha : bytes -> H) sdisk t target hs disk c content :
  convert_path_posix (fc_path c) = Ok (fc_path c) ->
  sdisk (fc_path c) = Some content ->
  hs !! basename (fc_path c) <> Some (sha content) ->
  path_join t (basename (fc_path c))
    <> path_join target (target_name (fc_uid c) (basename (fc_path c))) ->
  exists hs' disk' c' tp,
    download sha sdisk t target hs disk c = (hs', Ok (disk', c', Some tp)) /\
    fc_path c' = tp /\ disk' !! tp = Some content /\
    hs' !! basename (fc_path c) = Some (sha content).
Proof.
  intros Hc Hd Hh Hne. unfold download. simpl. rewrite Hd. unfold check_hash.
  assert (Hnk : (match hs !! basename (fc_path c) with
     | Some d' => if decide (d' = sha content) then (true, hs)
                  else (false, <[basename (fc_path c):=sha content]> hs)
     | None => (false, <[basename (fc_path c):=sha content]> hs)
     end) = (false, <[basename (fc_path c):=sha content]> hs)).
  { destruct (hs !! basename (fc_path c)) as [d|]; [|done].
    destruct (decide (d = sha content)); [|done]. congruence. }
  rewrite Hnk. unfold client_receive, move_file. simpl. rewrite Hc, lookup_insert.
  rewrite (bool_decide_false (path_join t _ = _)) by done. rewrite andb_false_r. simpl.
  do 4 eexists. split; [done|]. split; [done|]. split; [by rewrite lookup_insert|].
  by rewrite lookup_insert.
Qed.

(** … but if the server skips the file because the client already has it, the
    client's object keeps the *server's* path. *)
Lemma download_skipped {H} `{EqDecision H} (sha : bytes -> H) sdisk t target hs disk c content :
  convert_path_posix (fc_path c) = Ok (fc_path c) ->
  sdisk (fc_path c) = Some content ->
  hs !! basename (fc_path c) = Some (sha content) ->
  disk !! path_join t (basename (fc_path c)) = None ->
  download sha sdisk t target hs disk c = (hs, Ok (disk, c, None)).
Proof.
  intros Hc Hd Hh Hn. unfold download. simpl. rewrite Hd. unfold check_hash.
  rewrite Hh. destruct (decide (sha content = sha content)); [|done]. simpl.
  unfold client_receive, move_file. simpl. by rewrite Hc, Hn.
Qed.
