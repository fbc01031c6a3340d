(** Property theorems C01-C06, C47 (transport layer). *)
From stdpp Require Import base list gmap.
From Coq Require Import ZArith.
From Verif Require Import Prelude Utf8 Proto Files Server.

(** ** C01 *)

(** For every block size, command, payload and list of files that can be sent,
    the server's decoder recovers exactly command, payload and files, and
    leaves the rest of the stream alone. [request_ok] says: the command is not
    empty, texts are encodable in UTF-8, base names denote regular files and
    the three length fields fit in 5, 2 and 5 bytes.  The directory of the server lists what
    was written to it, the latest first, so of two files with one name the last one is found. *)
Theorem C01_request_roundtrip :
  forall (H : Type) (sha : bytes -> H) (command data : str) (files : list file),
    request_ok BLOCK_SIZE command data files ->
    exists frames,
      client_encode BLOCK_SIZE command data files = (frames, None) /\
      forall (following : stream) (known : hashes),
        server_decode sha (frames ++ following) known
        = Ok (command, data,
              rev (map (fun f => (basename (fst f), snd f)) files),
              rev (map (fun f => (basename (fst f), sha (snd f))) files) ++ known,
              following).
Proof.
  intros H sha command data files Hok.
  exact (request_roundtrip sha BLOCK_SIZE command data files BLOCK_SIZE_pos Hok).
Qed.
Print Assumptions C01_request_roundtrip.

Theorem C01_response_roundtrip :
  forall (H : Type) (sha : bytes -> H) (data : str) (files : list file),
    response_ok BLOCK_SIZE data files ->
    exists frames,
      server_encode BLOCK_SIZE data files = (frames, None) /\
      forall following : stream,
        client_decode sha (frames ++ following)
        = Ok (data, rev (map (fun f => (basename (fst f), snd f)) files), following).
Proof.
  intros H sha data files Hok.
  exact (response_roundtrip sha BLOCK_SIZE data files BLOCK_SIZE_pos Hok).
Qed.
Print Assumptions C01_response_roundtrip.

(** Conversely, a request that was sent completely satisfied all size
    conditions: nothing is truncated silently. *)
Theorem C01_sent_means_fits :
  forall command data files frames,
    client_encode BLOCK_SIZE command data files = (frames, None) ->
    forallb scalar command = true /\
    (exists b, utf8_encode data = Ok b /\
        (Z.of_nat (num_blocks_of (length b) BLOCK_SIZE) < 256 ^ 5)%Z) /\
    (Z.of_nat (length files) < 256 ^ 2)%Z /\
    Forall (fun f => forallb scalar (basename (fst f)) = true /\
       (Z.of_nat (num_blocks_of (length (snd f)) BLOCK_SIZE) < 256 ^ 5)%Z) files.
Proof. exact (client_encode_complete BLOCK_SIZE). Qed.
Print Assumptions C01_sent_means_fits.

(** "commit" with payload "{}" and two files "a/b" and "c" *)
Example C01_hypotheses_met :
  request_ok BLOCK_SIZE [99; 111; 109; 109; 105; 116]%N [123; 125]%N
    [([97; 47; 98]%N, [1; 2; 3]%N); ([99]%N, [])].
Proof.
  unfold request_ok, file_ok. repeat split; try discriminate; try reflexivity.
  - exists [123; 125]%N. split; reflexivity.
  - repeat constructor.
Qed.

(** An empty command is sent without complaint, but the server cannot decode
    it (the serving loop ends with an exception). *)
Theorem C01_empty_command_refuted :
  exists data frames,
    client_encode BLOCK_SIZE [] data [] = (frames, None) /\
    server_decode (fun b => b) frames [] = Err ValueError.
Proof.
  exists [123; 125]%N, (fst (client_encode BLOCK_SIZE [] [123; 125]%N [])).
  split; vm_compute; reflexivity.
Qed.
Print Assumptions C01_empty_command_refuted.

(** "A request that fails on the client is not sent" is false: an exception
    while encoding the second file (a file name that is not valid Unicode)
    leaves an incomplete message on the wire, and the next request, although
    correct by itself, is then misread by the server. *)
Theorem C01_failed_send_is_atomic_refuted :
  exists f1 f2 sent frames2,
    client_encode BLOCK_SIZE [97]%N [] [f1; f2] = (sent, Some UnicodeError) /\
    sent <> [] /\
    client_encode BLOCK_SIZE [98]%N [] [] = (frames2, None) /\
    server_decode (fun b => b) frames2 [] = Ok ([98]%N, [], [], [], []) /\
    exists e, server_decode (fun b => b) (sent ++ frames2) [] = Err e.
Proof.
  exists ([120]%N, []), ([0xD800]%N, []). do 2 eexists.
  split; [vm_compute; reflexivity|]. split; [discriminate|].
  split; [vm_compute; reflexivity|]. split; [vm_compute; reflexivity|].
  eexists. vm_compute; reflexivity.
Qed.
Print Assumptions C01_failed_send_is_atomic_refuted.

(** ** C02 *)

Theorem C02_encode_iff_fits :
  forall els lens, (exists b, encode_header els lens = Ok b) <-> fits els lens.
Proof.
  intros els lens. split.
  - intros [b Hb]. exact (encode_header_fits els lens b Hb).
  - exact (fits_encode_header els lens).
Qed.
Print Assumptions C02_encode_iff_fits.

Theorem C02_header_roundtrip :
  forall els lens b,
    encode_header els lens = Ok b ->
    decode_header b lens = Ok (visible els).
Proof. exact header_roundtrip. Qed.
Print Assumptions C02_header_roundtrip.

(** The encoded header is as wide as declared, plus the bytes of the text at its end. *)
Theorem C02_width :
  forall els lens b,
    encode_header els lens = Ok b ->
    length b = (list_sum lens
                + match List.last els (EInt 0) with
                  | EInt _ => 0
                  | EStr s => match utf8_encode s with Ok t => length t | Err _ => 0 end
                  end)%nat.
Proof.
  intros els lens b H. pose proof (encode_header_fits _ _ _ H) as Hf. revert b H.
  induction Hf as [|s Hs|z len els lens Hz Hf IH]; intros b H.
  - apply Ok_inj in H; subst; reflexivity.
  - unfold encode_header in H; cbn in H.
    destruct (utf8_encode s) as [b'|] eqn:E; [|discriminate].
    apply Ok_inj in H; cbn in H; subst b. cbn. by rewrite E.
  - rewrite encode_header_cons in H.
    destruct (to_bytes z len) as [b1|] eqn:E1; [|destruct (_ || _); discriminate].
    destruct (encode_header els lens) as [b2|] eqn:E2; [|discriminate].
    apply Ok_inj in H; subst b. apply to_bytes_spec in E1 as (Hlen & _ & _).
    rewrite app_length, Hlen, (IH _ eq_refl).
    assert (Hl : match List.last (EInt z :: els) (EInt 0) with
                  | EInt _ => 0
                  | EStr s => match utf8_encode s with Ok t => length t | Err _ => 0 end
                  end
               = match List.last els (EInt 0) with
                  | EInt _ => 0
                  | EStr s => match utf8_encode s with Ok t => length t | Err _ => 0 end
                  end) by (destruct els; reflexivity).
    rewrite Hl. change (list_sum (len :: lens)) with (len + list_sum lens)%nat. lia.
Qed.
Print Assumptions C02_width.

Example C02_hypotheses_met :
  fits [EInt 1; EInt 1099511627775; EInt 65535; EStr [0x20AC; 0x1F600]%N] LEN_HEADER.
Proof.
  constructor; [done|]. constructor; [done|]. constructor; [done|].
  constructor. reflexivity.
Qed.

(** ** C03 *)

Theorem C03_split_join :
  forall msg n blocks (following : stream),
    split_message msg BLOCK_SIZE = Ok (n, blocks) ->
    length blocks = n /\
    Forall (fun b => 0 < length b <= BLOCK_SIZE) blocks /\
    join_message (blocks ++ following) n = Ok (msg, following).
Proof.
  intros msg n blocks following Hs.
  pose proof (split_message_spec msg BLOCK_SIZE n blocks BLOCK_SIZE_pos Hs) as (Hn & _ & HF).
  exact (conj Hn (conj HF (join_split msg BLOCK_SIZE n blocks following BLOCK_SIZE_pos Hs))).
Qed.
Print Assumptions C03_split_join.

(** Splitting succeeds for every text without lone surrogates. *)
Theorem C03_split_total :
  forall msg, forallb scalar msg = true ->
    exists n blocks, split_message msg BLOCK_SIZE = Ok (n, blocks).
Proof.
  intros msg Hs. apply utf8_encode_ok in Hs as [b Hb].
  unfold split_message. rewrite Hb. eauto.
Qed.
Print Assumptions C03_split_total.

Example C03_three_blocks :
  exists blocks, split_message (repeat 65%N (N.to_nat 8193)) BLOCK_SIZE = Ok (3, blocks)
                 /\ map length blocks = [BLOCK_SIZE; BLOCK_SIZE; 1].
Proof. eexists. split; vm_compute; reflexivity. Qed.

(** ** C04, C05 *)

Section ServerProps.
  Context (S I : Type) (parse_init : str -> res I) (has_user_args : I -> bool)
    (has_session_kwargs : bool) (construct : positive -> I -> res S)
    (init_root : S -> I -> S * res str)
    (session_has session_callable : S -> str -> bool) (wrapper_has : str -> bool)
    (exec : S -> str -> str -> S * res str) (load : S -> str -> S * res str)
    (handshake : str -> positive -> res str) (close : S -> option exn)
    (exn_text : exn -> str).

  Notation run := (Server.run parse_init has_user_args has_session_kwargs construct
    init_root session_has session_callable wrapper_has exec load handshake close exn_text).
  Notation handle := (Server.handle_request parse_init has_user_args has_session_kwargs
    construct init_root session_has session_callable wrapper_has exec load handshake
    close exn_text).
  Notation dispatch := (Server.dispatch parse_init has_user_args has_session_kwargs
    construct init_root session_has session_callable wrapper_has exec load handshake
    close).
  Notation disconnect := (Server.handle_disconnect close).

  (** In every history, every method a client got executed is public, defined
      by the session, callable and not part of the generic wrapper session. *)
  Theorem C04_only_public_methods :
    forall (h : list event) c st cmd,
      In (c, CMethod st cmd) (log (fst (run Server.init h))) ->
      starts_with [95%N] cmd = false /\ session_has st cmd = true /\
      wrapper_has cmd = false /\ session_callable st cmd = true.
  Proof.
    intros h c st cmd Hin.
    destruct (run_log parse_init has_user_args has_session_kwargs construct init_root
      session_has session_callable wrapper_has exec load handshake close exn_text
      h Server.init) as (l & Hl & HF).
    rewrite Hl in Hin. simpl in Hin. rewrite Forall_forall in HF.
    exact (HF _ (proj2 (elem_of_list_In _ _) Hin)).
  Qed.

  (** Any other command is answered by an error and changes nothing at all. *)
  Theorem C04_other_commands_rejected :
    forall s c cmd data,
      cmd <> HANDSHAKE_COMMAND -> cmd <> INITIALIZE_COMMAND -> cmd <> LOAD_COMMAND ->
      (match sessions s !! c with
       | Some o => starts_with [95%N] cmd = true \/ session_has (so_state o) cmd = false
                   \/ wrapper_has cmd = true \/ session_callable (so_state o) cmd = false
       | None => True
       end) ->
      handle s cmd data c = (s, ERROR_PREFIX ++ exn_text (OtherError 1)).
  Proof.
    exact (rejected parse_init has_user_args has_session_kwargs construct init_root
      session_has session_callable wrapper_has exec load handshake close exn_text).
  Qed.

  (** On a connection without session only handshake and initialisation work. *)
  Theorem C04_needs_initialisation :
    forall s c cmd data,
      sessions s !! c = None -> cmd <> HANDSHAKE_COMMAND -> cmd <> INITIALIZE_COMMAND ->
      fst (handle s cmd data c) = s /\
      starts_with ERROR_PREFIX (snd (handle s cmd data c)) = true.
  Proof.
    exact (uninitialised parse_init has_user_args has_session_kwargs construct init_root
      session_has session_callable wrapper_has exec load handshake close exn_text).
  Qed.

  (** The client's call raises exactly if the server failed. *)
  Theorem C04_client_sees_failure :
    forall s cmd data c,
      client_raises (snd (handle s cmd data c)) = negb (is_ok (snd (dispatch s cmd data c))).
  Proof.
    exact (client_sees_failure parse_init has_user_args has_session_kwargs construct
      init_root session_has session_callable wrapper_has exec load handshake close exn_text).
  Qed.

  (** Non-interference: for every interleaving of the events of all
      connections, the responses to connection [c] and its session are those of
      the history in which only [c]'s events happened. *)
  Theorem C05_isolation :
    forall (h : list event) (c : positive),
      let own := filter (fun e => conn e = c) h in
      filter (fun r => fst r = c) (snd (run Server.init h)) = snd (run Server.init own) /\
      sessions (fst (run Server.init h)) !! c = sessions (fst (run Server.init own)) !! c.
  Proof.
    intros h c.
    exact (noninterference parse_init has_user_args has_session_kwargs construct
      init_root session_has session_callable wrapper_has exec load handshake close exn_text
      h c Server.init Server.init eq_refl).
  Qed.

  Theorem C05_disconnect_closes_only_own :
    forall s c o,
      sessions s !! c = Some o -> close (so_state o) = None ->
      sessions (fst (disconnect s c)) = delete c (sessions s) /\
      log (fst (disconnect s c)) = log s ++ [(c, CClose)].
  Proof. exact (disconnect_spec close). Qed.
End ServerProps.
Print Assumptions C04_only_public_methods.
Print Assumptions C04_other_commands_rejected.
Print Assumptions C04_needs_initialisation.
Print Assumptions C04_client_sees_failure.
Print Assumptions C05_isolation.
Print Assumptions C05_disconnect_closes_only_own.

(** A toy session class: a counter with the method "run" ("r"); initialisation
    with payload "x" fails. Used to show that the theorems above are not
    vacuous and for the refutation below. *)
Definition toy_run :=
  Server.run (S := nat) (I := str) (fun d => Ok d) (fun _ => false) false
    (fun _ d => if bool_decide (d = [120%N]) then Err RuntimeError else Ok 0)
    (fun s _ => (s, Ok [125%N])) (fun _ cmd => bool_decide (cmd = [114%N]))
    (fun _ _ => true) (fun _ => false)
    (fun s _ _ => (s + 1, Ok [125%N])) (fun s _ => (s, Ok [125%N]))
    (fun _ _ => Ok [125%N]) (fun _ => None) (fun _ => []).

Example C05_two_clients :
  let h := [Request 1 INITIALIZE_COMMAND []; Request 2 INITIALIZE_COMMAND [];
            Request 1 [114%N] []; Request 2 [114%N] []; Request 1 [114%N] [];
            Disconnect 2] in
  sessions (fst (toy_run Server.init h)) !! 1%positive = Some (SO 2 false) /\
  sessions (fst (toy_run Server.init h)) !! 2%positive = None /\
  In (2%positive, CMethod 0 [114%N]) (log (fst (toy_run Server.init h))).
Proof. vm_compute. repeat split. tauto. Qed.

(** "Commands never run on a session that has been closed" is false: a failing
    re-initialisation closes the old session but keeps it registered. *)
Theorem C05_no_use_after_close_refuted :
  exists h o,
    sessions (fst (toy_run Server.init h)) !! 1%positive = Some o /\
    so_closed o = true /\
    snd (toy_run Server.init (h ++ [Request 1 [114%N] []]))
      = snd (toy_run Server.init h) ++ [(1%positive, Some [123%N; 125%N])].
Proof.
  exists [Request 1 INITIALIZE_COMMAND []; Request 1 INITIALIZE_COMMAND [120%N]].
  eexists. split; [vm_compute; reflexivity|]. split; vm_compute; reflexivity.
Qed.
Print Assumptions C05_no_use_after_close_refuted.

(** ** C06 *)

(** For every history of announcements, uploads and responses on a connection,
    the peer holds exactly the files it would hold without any filter. *)
Theorem C06_filter_is_transparent :
  forall (H : Type) (EqH : EqDecision H) (sha : bytes -> H),
    (forall a b, sha a = sha b -> a = b) ->
    forall events, fs_peer (foldl (fstep sha) finit events)
                   = foldl fstep_nofilter ∅ events.
Proof.
  intros H EqH sha Hinj events. exact (filter_transparent sha events Hinj).
Qed.
Print Assumptions C06_filter_is_transparent.

(** An existing file is left out of a response iff the peer holds exactly it. *)
Theorem C06_skipped_iff_known :
  forall (H : Type) (EqH : EqDecision H) (sha : bytes -> H),
    (forall a b, sha a = sha b -> a = b) ->
    forall events path disk content,
      disk path = Some content ->
      let s := foldl (fstep sha) finit events in
      fst (filter_files sha disk [path] (fs_hashes s)) = [] <->
      fs_peer s !! basename path = Some content.
Proof.
  intros H EqH sha Hinj events path disk content Hd.
  exact (not_sent_known sha events path disk content Hinj Hd).
Qed.
Print Assumptions C06_skipped_iff_known.

Example C06_example :
  let disk := fun p => if bool_decide (p = [97]%N) then Some [7]%N else None in
  let s := foldl (fstep (fun b => b)) finit
             [Upload [98]%N [1]%N; Respond disk [[97]%N; [99]%N]] in
  fs_peer s !! [98]%N = Some [1]%N /\ fs_peer s !! [97]%N = Some [7]%N /\
  fs_peer s !! [99]%N = None /\
  fst (filter_files (fun b => b) disk [[97]%N] (fs_hashes s)) = [].
Proof. vm_compute. repeat split; reflexivity. Qed.

(** ** C47 *)

Theorem C47_name_is_stable :
  forall uid base, target_name uid (target_name uid base) = target_name uid base.
Proof. exact target_name_idem. Qed.
Print Assumptions C47_name_is_stable.

Theorem C47_names_of_different_objects_differ :
  forall uid1 uid2 base1 base2,
    length uid1 = length uid2 ->
    target_name uid1 base1 = target_name uid2 base2 -> uid1 = uid2.
Proof. exact target_name_uid_inj. Qed.
Print Assumptions C47_names_of_different_objects_differ.

(** Moving the file of one object leaves the stored files of all other objects
    in the target directory (names starting with another uid) alone. *)
Theorem C47_no_overwrite :
  forall target_exists temp target disk c disk' c' moved uid name,
    move_file target_exists temp target disk c = Ok (disk', c', moved) ->
    length uid = length (fc_uid c) -> uid <> fc_uid c ->
    starts_with uid name = true ->
    disk' !! path_join target name = disk !! path_join target name.
Proof. exact move_file_frame. Qed.
Print Assumptions C47_no_overwrite.

(** A moved file: the object's new path is in the target directory, the name
    starts with the uid, the file exists there, and no other file changed. *)
Theorem C47_moved_file :
  forall target_exists temp target disk c disk' c' tp,
    move_file target_exists temp target disk c = Ok (disk', c', Some tp) ->
    fc_path c' = tp /\ fc_uid c' = fc_uid c /\
    (exists name, tp = path_join target name /\ starts_with (fc_uid c) name = true) /\
    is_Some (disk' !! tp) /\
    (forall q, q <> tp -> disk' !! q = disk !! q).
Proof. exact move_file_spec. Qed.
Print Assumptions C47_moved_file.

(** A file that the server transmits ends up in a local file with the server's
    content, and the client's object points to it. *)
Theorem C47_download_sent :
  forall (H : Type) (EqH : EqDecision H) (sha : bytes -> H)
         sdisk temp target hs disk c content,
    convert_path_posix (fc_path c) = Ok (fc_path c) ->
    sdisk (fc_path c) = Some content ->
    hs !! basename (fc_path c) <> Some (sha content) ->
    path_join temp (basename (fc_path c))
      <> path_join target (target_name (fc_uid c) (basename (fc_path c))) ->
    exists hs' disk' c' tp,
      download sha sdisk temp target hs disk c = (hs', Ok (disk', c', Some tp)) /\
      fc_path c' = tp /\ disk' !! tp = Some content /\
      hs' !! basename (fc_path c) = Some (sha content).
Proof. exact @download_sent. Qed.
Print Assumptions C47_download_sent.

(** "After receiving a file object its path names a file on this machine" is
    false: when the same object is downloaded a second time, the server skips
    the file and the client's object keeps the path on the server.
    Here: the server's file is "/s/u-f", uid "u", client directories "/t" and
    "/c". *)
Theorem C47_path_is_local_refuted :
  exists sdisk c hs1 disk1 c1 tp hs2 disk2 c2,
    download (fun b => b) sdisk [47; 116]%N [47; 99]%N ∅ ∅ c
      = (hs1, Ok (disk1, c1, Some tp)) /\
    disk1 !! fc_path c1 = Some [7]%N /\
    (* the temporary directory is deleted after the response *)
    download (fun b => b) sdisk [47; 116]%N [47; 99]%N hs1
        (delete (path_join [47; 116]%N [117; 45; 102]%N) disk1) c
      = (hs2, Ok (disk2, c2, None)) /\
    disk2 !! fc_path c2 = None /\ disk2 !! tp = Some [7]%N.
Proof.
  exists (fun p => if bool_decide (p = [47; 115; 47; 117; 45; 102]%N) then Some [7]%N else None).
  exists (FC [117]%N [47; 115; 47; 117; 45; 102]%N).
  do 7 eexists.
  split; [vm_compute; reflexivity|]. split; [vm_compute; reflexivity|].
  split; [vm_compute; reflexivity|]. split; vm_compute; reflexivity.
Qed.
Print Assumptions C47_path_is_local_refuted.
