(** The framing protocol of the transport layer:
    osp/core/session/transport/communication_utils.py and
    osp/core/session/transport/communication_engine.py.

    A websocket is modelled as the list of the messages (byte strings) that
    arrive on it: the websocket library preserves message boundaries and order;
    receiving from an exhausted stream is [ConnectionClosed]. *)
From Coq Require Import List NArith ZArith Lia Bool Arith.
From Coq Require Import ZifyBool ZifyN ZifyNat.
From Verif Require Import Prelude Utf8.
Import ListNotations.
Open Scope nat_scope.

(* Python comparisons become [Nat.ltb] etc.; keep [simpl] away from them. *)
Ltac Zify.zify_post_hook ::= Z.div_mod_to_equations.

(** ** Headers *)

(** An element of a header: Python [int] or [str]. *)
Inductive elem := EInt (z : Z) | EStr (s : str).

(** [n.to_bytes(length, "big")] for an n that fits. *)
Fixpoint be_bytes (len : nat) (n : N) : bytes :=
  match len with
  | O => []
  | S len' => be_bytes len' (n / 256)%N ++ [(n mod 256)%N]
  end.

(** [int.to_bytes(length, byteorder="big")]: OverflowError for negative numbers
    and for numbers that do not fit.  communication_utils.py:57 *)
Definition to_bytes (z : Z) (len : nat) : res bytes :=
  if (z <? 0)%Z then Err OverflowError
  else if (256 ^ N.of_nat len <=? Z.to_N z)%N then Err OverflowError
  else Ok (be_bytes len (Z.to_N z)).

(** [int.from_bytes(bs, byteorder="big")].  communication_utils.py:30 *)
Definition from_bytes (bs : bytes) : N :=
  fold_left (fun a b => a * 256 + b)%N bs 0%N.

(** communication_utils.py:36-62 [encode_header], the loop of lines 54-57
    (returns the unconsumed elements). *)
Fixpoint encode_ints (els : list elem) (lens : list nat)
  : res (bytes * list elem) :=
  match lens, els with
  | [], _ => Ok ([], els)
  | _, [] => Ok ([], [])
  | len :: lens', EInt z :: els' =>
      match to_bytes z len with
      | Err e => Err e
      | Ok b => match encode_ints els' lens' with
                | Err e => Err e
                | Ok (b', rest) => Ok (b ++ b', rest)
                end
      end
  | _ :: _, EStr _ :: _ => Err NotImplementedError
  end.

(** communication_utils.py:36-62 [encode_header].  Simplification: [bool]
    (a subclass of [int]) is not distinguished. *)
Definition encode_header (els : list elem) (lens : list nat) : res bytes :=
  if (length els <? length lens) || (length lens + 1 <? length els)
  then Err ValueError
  else match encode_ints els lens with
       | Err e => Err e
       | Ok (b, rest) =>
           match rest with
           | [] => Ok b
           | EStr s :: _ => match utf8_encode s with
                            | Err e => Err e
                            | Ok b' => Ok (b ++ b')
                            end
           | EInt _ :: _ => Err NotImplementedError
           end
       end.

(** communication_utils.py:14-33 [decode_header].  The generator is always
    consumed completely by its callers (tuple unpacking), so its result is the
    list of yielded elements or the exception. *)
Fixpoint decode_header (bs : bytes) (lens : list nat) : res (list elem) :=
  match lens with
  | [] => match bs with
          | [] => Ok []
          | _ => match utf8_decode bs with
                 | Ok s => Ok [EStr s]
                 | Err e => Err e
                 end
          end
  | len :: lens' =>
      if length bs <? len then Err IndexError
      else match decode_header (skipn len bs) lens' with
           | Err e => Err e
           | Ok els => Ok (EInt (Z.of_N (from_bytes (firstn len bs))) :: els)
           end
  end.

(** ** Splitting messages in blocks *)

(** communication_utils.py:10 *)
Definition BLOCK_SIZE : nat := N.to_nat 4096.
(** communication_utils.py:11 *)
Definition LEN_FILES_HEADER : list nat := [5].
(** communication_engine.py:21-22 *)
Definition LEN_HEADER : list nat := [2; 5; 2].
Definition VERSION : Z := 1.

(** [int(math.ceil(n / block_size))].  Simplification: exact arithmetic instead
    of a float division (exact for lengths below 2^53, since 4096 is a power of
    two). communication_utils.py:77, 144 *)
Definition num_blocks_of (n bsize : nat) : nat := (n + (bsize - 1)) / bsize.

(** [msg[a:b]] *)
Definition slice {A} (a b : nat) (l : list A) : list A := firstn (b - a) (skipn a l).

(** communication_utils.py:65-85 [split_message], with [bsize] for block_size *)
Definition split_message (msg : str) (bsize : nat) : res (nat * list bytes) :=
  match utf8_encode msg with
  | Err e => Err e
  | Ok b =>
      let n := num_blocks_of (length b) bsize in
      Ok (n, map (fun i => slice (i * bsize) ((i + 1) * bsize) b) (seq 0 n))
  end.

(** The websocket: [await websocket.recv()]. *)
Definition stream := list bytes.
Definition recv (w : stream) : res (bytes * stream) :=
  match w with [] => Err ConnectionClosed | b :: w' => Ok (b, w') end.

(** [for i in range(n): data += await websocket.recv()] *)
Fixpoint recv_n (n : nat) (w : stream) : res (bytes * stream) :=
  match n with
  | O => Ok ([], w)
  | S n' => match recv w with
            | Err e => Err e
            | Ok (b, w1) => match recv_n n' w1 with
                            | Err e => Err e
                            | Ok (d, w2) => Ok (b ++ d, w2)
                            end
            end
  end.

(** communication_utils.py:88-105 [join_message] *)
Definition join_message (w : stream) (n : nat) : res (str * stream) :=
  match recv_n n w with
  | Err e => Err e
  | Ok (d, w') => match utf8_decode d with
                  | Err e => Err e
                  | Ok s => Ok (s, w')
                  end
  end.

(** ** Files *)

(** A file on disk that exists: its path and its bytes. *)
Definition file := (str * bytes)%type.

(** [os.path.basename] on posix: what follows the last "/". *)
Fixpoint basename_acc (acc s : str) : str :=
  match s with
  | [] => rev acc
  | c :: s' => if (c =? 47)%N then basename_acc [] s' else basename_acc (c :: acc) s'
  end.
Definition basename (p : str) : str := basename_acc [] p.

(** [iter(lambda: f.read(BLOCK_SIZE), b"")], communication_utils.py:151.
    The fuel is the number of bytes left; [None] never occurs for it
    ([read_blocks_fuel]). *)
Fixpoint read_blocks (fuel : nat) (bsize : nat) (content : bytes) : option (list bytes) :=
  match content with
  | [] => Some []
  | _ => match fuel with
         | O => None
         | S fuel' =>
             match read_blocks fuel' bsize (skipn bsize content) with
             | None => None
             | Some bl => Some (firstn bsize content :: bl)
             end
         end
  end.

(** What a generator has yielded, and how it ended. *)
Definition emitted := (list bytes * option exn)%type.
Definition emit_app (a : emitted) (k : unit -> emitted) : emitted :=
  match a with
  | (fr, Some e) => (fr, Some e)
  | (fr, None) => let '(fr', r) := k tt in (fr ++ fr', r)
  end.
Definition emit1 (m : res bytes) : emitted :=
  match m with Ok b => ([b], None) | Err e => ([], Some e) end.

(** communication_utils.py:130-154 [encode_files], with the frames already
    yielded when an exception is raised. *)
Definition encode_file (bsize : nat) (f : file) : emitted :=
  let '(path, content) := f in
  let n := num_blocks_of (length content) bsize in
  emit_app (emit1 (encode_header [EInt (Z.of_nat n); EStr (basename path)]
                                 LEN_FILES_HEADER))
    (fun _ => match read_blocks (length content) bsize content with
              | Some bl => (bl, None)
              | None => ([], Some OutOfFuel)
              end).

Fixpoint encode_files (bsize : nat) (fs : list file) : emitted :=
  match fs with
  | [] => ([], None)
  | f :: fs' => emit_app (encode_file bsize f) (fun _ => encode_files bsize fs')
  end.

(** The receiving directory: file name |-> content, last write first. *)
Definition directory := list (str * bytes).

(** [open(os.path.join(directory, filename), "wb")] succeeds for a base name
    that denotes a regular file: not empty, not "." or ".." and without NUL.
    (Python raises IsADirectoryError, an OSError, in the former cases and
    ValueError for an embedded NUL; the model uses OSError for all.) *)
Definition name_ok (n : str) : bool :=
  negb (match n with
        | [] => true
        | [46%N] => true
        | [46%N; 46%N] => true
        | _ => false
        end) && forallb (fun c => negb (c =? 0)%N) n.

(** communication_utils.py:157-184 [receive_files].  [sha] stands for
    [hashlib.sha256(...).hexdigest()]; the incremental update over the blocks
    is the digest of their concatenation. Python dicts are association lists
    with the latest binding first. *)
Section Receive.
  Context {H : Type} (sha : bytes -> H).
  Definition hashes := list (str * H).

  Definition receive_file (w : stream) (d : directory) (h : hashes)
    : res (stream * directory * hashes) :=
    match recv w with
    | Err e => Err e
    | Ok (b, w1) =>
        match decode_header b LEN_FILES_HEADER with
        | Err e => Err e
        | Ok [EInt n; EStr fname] =>
            let name := basename fname in
            if name_ok name then
              match recv_n (Z.to_nat n) w1 with
              | Err e => Err e
              | Ok (content, w2) =>
                  Ok (w2, (name, content) :: d, (name, sha content) :: h)
              end
            else Err OSError
        | Ok _ => Err ValueError       (* not enough values to unpack *)
        end
    end.

  Fixpoint receive_files (n : nat) (w : stream) (d : directory) (h : hashes)
    : res (stream * directory * hashes) :=
    match n with
    | O => Ok (w, d, h)
    | S n' => match receive_file w d h with
              | Err e => Err e
              | Ok (w1, d1, h1) => receive_files n' w1 d1 h1
              end
    end.

  (** communication_engine.py:112-140 [CommunicationEngineServer._decode] with
      a fresh temporary directory. *)
  Definition server_decode (w : stream) (h : hashes)
    : res (str * str * directory * hashes * stream) :=
    match recv w with
    | Err e => Err e
    | Ok (b, w1) =>
        match decode_header b LEN_HEADER with
        | Err e => Err e
        | Ok [EInt version; EInt nblocks; EInt nfiles; EStr command] =>
            if negb (version =? VERSION)%Z then Err NotImplementedError
            else match join_message w1 (Z.to_nat nblocks) with
                 | Err e => Err e
                 | Ok (data, w2) =>
                     match receive_files (Z.to_nat nfiles) w2 [] h with
                     | Err e => Err e
                     | Ok (w3, d, h') => Ok (command, data, d, h', w3)
                     end
                 end
        | Ok _ => Err ValueError
        end
    end.

  (** communication_engine.py:213-222, the client reading the response with a
      fresh temporary directory.  (The version is not checked there.) *)
  Definition client_decode (w : stream)
    : res (str * directory * stream) :=
    match recv w with
    | Err e => Err e
    | Ok (b, w1) =>
        match decode_header b LEN_HEADER with
        | Err e => Err e
        | Ok [EInt _; EInt nblocks; EInt nfiles] =>
            match join_message w1 (Z.to_nat nblocks) with
            | Err e => Err e
            | Ok (data, w2) =>
                match receive_files (Z.to_nat nfiles) w2 [] [] with
                | Err e => Err e
                | Ok (w3, d, _) => Ok (data, d, w3)
                end
            end
        | Ok _ => Err ValueError
        end
    end.
End Receive.

(** communication_engine.py:228-245 [CommunicationEngineClient._encode] *)
Definition client_encode (bsize : nat) (command data : str) (files : list file)
  : emitted :=
  match split_message data bsize with
  | Err e => ([], Some e)
  | Ok (n, blocks) =>
      emit_app (emit1 (encode_header
                         [EInt 1; EInt (Z.of_nat n);
                          EInt (Z.of_nat (length files)); EStr command]
                         LEN_HEADER))
        (fun _ => emit_app (blocks, None) (fun _ => encode_files bsize files))
  end.

(** communication_engine.py:95-104, the server sending a response. *)
Definition server_encode (bsize : nat) (data : str) (files : list file) : emitted :=
  match split_message data bsize with
  | Err e => ([], Some e)
  | Ok (n, blocks) =>
      emit_app (emit1 (encode_header
                         [EInt VERSION; EInt (Z.of_nat n);
                          EInt (Z.of_nat (length files))]
                         LEN_HEADER))
        (fun _ => emit_app (blocks, None) (fun _ => encode_files bsize files))
  end.

(** * Proofs *)

Lemma be_bytes_length len n : length (be_bytes len n) = len.
Proof.
  revert n; induction len as [|len IH]; intros n; cbn [be_bytes]; [reflexivity|].
  rewrite app_length, IH; cbn; lia.
Qed.

Lemma pow_succ_N len : (256 ^ N.of_nat (S len) = 256 ^ N.of_nat len * 256)%N.
Proof. rewrite Nat2N.inj_succ, N.pow_succ_r'. lia. Qed.

Lemma from_be_bytes len n :
  (n < 256 ^ N.of_nat len)%N -> from_bytes (be_bytes len n) = n.
Proof.
  revert n; induction len as [|len IH]; intros n H.
  - cbn in *. lia.
  - rewrite pow_succ_N in H. cbn [be_bytes]. unfold from_bytes.
    rewrite fold_left_app. fold (from_bytes (be_bytes len (n / 256))).
    rewrite IH by (apply N.div_lt_upper_bound; lia).
    cbn [fold_left]. pose proof (N.div_mod' n 256). lia.
Qed.

Lemma to_bytes_spec z len b :
  to_bytes z len = Ok b ->
  length b = len /\ Z.of_N (from_bytes b) = z /\ (0 <= z < 256 ^ Z.of_nat len)%Z.
Proof.
  unfold to_bytes. destruct (z <? 0)%Z eqn:H1; [discriminate|].
  destruct (_ <=? _)%N eqn:H2; [discriminate|]. intros H; apply Ok_inj in H; subst b.
  assert (Hlt : (Z.to_N z < 256 ^ N.of_nat len)%N) by lia.
  repeat split.
  - apply be_bytes_length.
  - rewrite from_be_bytes by exact Hlt. lia.
  - lia.
  - apply N2Z.inj_lt in Hlt. rewrite N2Z.inj_pow, nat_N_Z in Hlt. lia.
Qed.

Lemma to_bytes_ok z len :
  (0 <= z < 256 ^ Z.of_nat len)%Z -> exists b, to_bytes z len = Ok b.
Proof.
  intros H. unfold to_bytes. replace (z <? 0)%Z with false by lia.
  destruct (_ <=? _)%N eqn:H2; [exfalso|eauto].
  apply N.leb_le in H2. apply N2Z.inj_le in H2. rewrite N2Z.inj_pow, nat_N_Z in H2.
  rewrite Z2N.id in H2 by lia. change (Z.of_N 256) with 256%Z in H2. lia.
Qed.

(** Independent description of a header that fits. *)
Inductive fits : list elem -> list nat -> Prop :=
| fits_nil : fits [] []
| fits_str s : forallb scalar s = true -> fits [EStr s] []
| fits_int z len els lens :
    (0 <= z < 256 ^ Z.of_nat len)%Z -> fits els lens ->
    fits (EInt z :: els) (len :: lens).

Lemma encode_header_cons z len els lens :
  encode_header (EInt z :: els) (len :: lens) =
  match to_bytes z len with
  | Err e => if (length els <? length lens) || (length lens + 1 <? length els)
             then Err ValueError else Err e
  | Ok b => match encode_header els lens with
            | Err e => Err e
            | Ok b' => Ok (b ++ b')
            end
  end.
Proof.
  unfold encode_header. cbn [length encode_ints].
  replace (S (length els) <? S (length lens)) with (length els <? length lens)
    by (destruct (length els <? length lens) eqn:?; lia).
  replace (S (length lens) + 1 <? S (length els)) with (length lens + 1 <? length els)
    by (destruct (length lens + 1 <? length els) eqn:?; lia).
  destruct ((length els <? length lens) || (length lens + 1 <? length els)).
  - destruct (to_bytes z len); reflexivity.
  - destruct (to_bytes z len) as [b|]; [|reflexivity].
    destruct (encode_ints els lens) as [[b' rest]|]; [|reflexivity].
    destruct rest as [|[z'|s] rest']; [reflexivity|reflexivity|].
    destruct (utf8_encode s) as [b2|]; [|reflexivity].
    rewrite app_assoc; reflexivity.
Qed.

Lemma encode_header_fits els lens b : encode_header els lens = Ok b -> fits els lens.
Proof.
  revert els b; induction lens as [|len lens IH]; intros els b H.
  - unfold encode_header in H. cbn [length encode_ints] in H.
    destruct els as [|e els]; [constructor|].
    destruct els as [|e' els]; [|discriminate].
    cbn in H. destruct e as [z|s]; [discriminate|].
    destruct (utf8_encode s) as [b'|] eqn:E; [|discriminate].
    constructor. apply utf8_encode_ok; eauto.
  - destruct els as [|[z|s] els]; [discriminate| |].
    + rewrite encode_header_cons in H.
      destruct (to_bytes z len) as [b1|] eqn:E1; [|destruct (_ || _); discriminate].
      destruct (encode_header els lens) as [b2|] eqn:E2; [|discriminate].
      constructor; [apply (to_bytes_spec _ _ _ E1)|eapply IH; eauto].
    + unfold encode_header in H. destruct (_ || _); [discriminate|].
      cbn in H. discriminate.
Qed.

Lemma fits_encode_header els lens : fits els lens -> exists b, encode_header els lens = Ok b.
Proof.
  induction 1 as [|s Hs|z len els lens Hz Hf IH].
  - exists []. reflexivity.
  - apply utf8_encode_ok in Hs as [b Hb]. exists b. unfold encode_header; cbn.
    rewrite Hb. reflexivity.
  - destruct IH as [b' Hb']. destruct (to_bytes_ok _ _ Hz) as [b Hb].
    rewrite encode_header_cons, Hb, Hb'. eauto.
Qed.

(** A header whose string part is empty is encoded like one without it; the
    decoder then yields one element less. *)
Definition visible (els : list elem) : list elem :=
  filter (fun e => match e with EStr [] => false | _ => true end) els.

Lemma header_roundtrip els lens b :
  encode_header els lens = Ok b -> decode_header b lens = Ok (visible els).
Proof.
  intros H. pose proof (encode_header_fits _ _ _ H) as Hf. revert b H.
  induction Hf as [|s Hs|z len els lens Hz Hf IH]; intros b H.
  - apply Ok_inj in H; subst; reflexivity.
  - unfold encode_header in H; cbn in H.
    destruct (utf8_encode s) as [b'|] eqn:E; [|discriminate].
    apply Ok_inj in H; cbn in H; subst b.
    destruct b' as [|x b'].
    + apply utf8_encode_nil in E; subst s. reflexivity.
    + cbn [decode_header]. rewrite (utf8_roundtrip _ _ E).
      destruct s; [discriminate E|reflexivity].
  - rewrite encode_header_cons in H.
    destruct (to_bytes z len) as [b1|] eqn:E1; [|destruct (_ || _); discriminate].
    destruct (encode_header els lens) as [b2|] eqn:E2; [|discriminate].
    apply Ok_inj in H; subst b.
    apply to_bytes_spec in E1 as (Hlen & Hval & _).
    cbn [decode_header]. rewrite app_length, Hlen.
    replace (len + length b2 <? len) with false by lia.
    rewrite <- Hlen at 1. rewrite skipn_app, Nat.sub_diag, skipn_all. cbn [app skipn].
    rewrite (IH _ eq_refl).
    rewrite <- Hlen at 1. rewrite firstn_app, Nat.sub_diag, firstn_all. cbn [firstn].
    rewrite app_nil_r, Hval. reflexivity.
Qed.

(** ** Blocks *)

Lemma num_blocks_bounds n bs :
  bs > 0 -> n <= num_blocks_of n bs * bs < n + bs.
Proof.
  intros H. unfold num_blocks_of.
  pose proof (Nat.div_mod (n + (bs - 1)) bs ltac:(lia)) as E.
  pose proof (Nat.mod_upper_bound (n + (bs - 1)) bs ltac:(lia)).
  set (q := (n + (bs - 1)) / bs) in *. lia.
Qed.

Lemma skipn_plus {A} a b (l : list A) : skipn (a + b) l = skipn a (skipn b l).
Proof.
  revert l; induction b as [|b IH]; intros l.
  - rewrite Nat.add_0_r. reflexivity.
  - rewrite Nat.add_succ_r. destruct l as [|x l]; cbn [skipn].
    + rewrite skipn_nil. reflexivity.
    + apply IH.
Qed.

Lemma concat_slices {A} (l : list A) bs k start :
  concat (map (fun i => slice (i * bs) ((i + 1) * bs) l) (seq start k))
  = slice (start * bs) ((start + k) * bs) l.
Proof.
  revert start; induction k as [|k IH]; intros start; cbn [seq map concat].
  - unfold slice. replace ((start + 0) * bs - start * bs) with 0 by lia. reflexivity.
  - rewrite IH. unfold slice.
    replace ((start + 1) * bs - start * bs) with bs by lia.
    replace ((S start + k) * bs - S start * bs) with (k * bs) by lia.
    replace ((start + S k) * bs - start * bs) with (bs + k * bs) by lia.
    replace (S start * bs) with (bs + start * bs) by lia.
    rewrite skipn_plus. generalize (skipn (start * bs) l) as m; intros m.
    rewrite <- (firstn_skipn bs m) at 3.
    rewrite firstn_app.
    destruct (le_lt_dec bs (length m)) as [Hle|Hlt].
    + rewrite firstn_length_le by exact Hle.
      rewrite firstn_firstn, Nat.min_r by lia.
      replace (bs + k * bs - bs) with (k * bs) by lia. reflexivity.
    + rewrite (firstn_all2 (n := bs)) by lia.
      rewrite (skipn_all2 (n := bs)) by lia. rewrite !firstn_nil.
      rewrite firstn_all2 by lia. reflexivity.
Qed.

Lemma split_concat (b : bytes) bs :
  bs > 0 ->
  concat (map (fun i => slice (i * bs) ((i + 1) * bs) b)
            (seq 0 (num_blocks_of (length b) bs))) = b.
Proof.
  intros H. rewrite concat_slices. cbn [Nat.add Nat.mul]. unfold slice.
  cbn [skipn]. apply firstn_all2. pose proof (num_blocks_bounds (length b) bs H). lia.
Qed.

Lemma recv_n_app (frames rest : stream) :
  recv_n (length frames) (frames ++ rest) = Ok (concat frames, rest).
Proof.
  induction frames as [|f frames IH]; cbn; [reflexivity|].
  rewrite IH. reflexivity.
Qed.

Lemma split_message_spec msg bs n blocks :
  bs > 0 -> split_message msg bs = Ok (n, blocks) ->
  length blocks = n /\ utf8_encode msg = Ok (concat blocks) /\
  Forall (fun b => 0 < length b <= bs) blocks.
Proof.
  intros Hbs H. unfold split_message in H.
  destruct (utf8_encode msg) as [b|]; [|discriminate].
  apply Ok_inj in H. injection H as <- <-. split; [|split].
  - rewrite map_length, seq_length. reflexivity.
  - rewrite split_concat by exact Hbs. reflexivity.
  - apply Forall_forall. intros x Hx. apply in_map_iff in Hx as (i & <- & Hi).
    apply in_seq in Hi. unfold slice. rewrite firstn_length, skipn_length.
    pose proof (num_blocks_bounds (length b) bs Hbs).
    set (q := num_blocks_of (length b) bs) in *.
    replace ((i + 1) * bs - i * bs) with bs by lia.
    assert (i * bs <= (q - 1) * bs) by (apply Nat.mul_le_mono_r; lia).
    assert (q * bs = (q - 1) * bs + bs) by
      (replace q with (S (q - 1)) at 1 by lia; lia).
    lia.
Qed.

Lemma join_split msg bs n blocks rest :
  bs > 0 -> split_message msg bs = Ok (n, blocks) ->
  join_message (blocks ++ rest) n = Ok (msg, rest).
Proof.
  intros Hbs H. apply split_message_spec in H as (Hn & Hc & _); [|exact Hbs].
  unfold join_message. rewrite <- Hn, recv_n_app.
  rewrite (utf8_roundtrip _ _ Hc). reflexivity.
Qed.

(** ** Files *)

Lemma read_blocks_fuel fuel bs content :
  bs > 0 -> length content <= fuel ->
  exists bl, read_blocks fuel bs content = Some bl /\ concat bl = content /\
             length bl = num_blocks_of (length content) bs.
Proof.
  intros Hbs. revert content; induction fuel as [|fuel IH]; intros content Hl.
  - destruct content; [|cbn in Hl; lia]. exists []. repeat split.
    cbn. unfold num_blocks_of. rewrite Nat.div_small by lia. reflexivity.
  - destruct content as [|c content].
    + exists []. repeat split. unfold num_blocks_of. cbn.
      rewrite Nat.div_small by lia. reflexivity.
    + cbn [read_blocks].
      destruct (IH (skipn bs (c :: content))) as (bl & E & Hc & Hn).
      { rewrite skipn_length. cbn [length] in *. lia. }
      rewrite E. eexists. split; [reflexivity|]. split.
      * cbn [concat]. rewrite Hc. apply firstn_skipn.
      * cbn [length]. rewrite Hn, skipn_length. cbn [length].
        set (m := S (length content)). unfold num_blocks_of.
        destruct (le_lt_dec bs m).
        -- replace (m + (bs - 1)) with (m - bs + (bs - 1) + 1 * bs) by lia.
           rewrite Nat.div_add by lia. lia.
        -- replace (m - bs) with 0 by lia.
           rewrite (Nat.div_small (0 + _)) by lia.
           replace (m + (bs - 1)) with ((m - 1) + 1 * bs) by lia.
           rewrite Nat.div_add, Nat.div_small by lia. reflexivity.
Qed.

Lemma basename_acc_noslash acc s :
  forallb (fun c => negb (c =? 47)%N) s = true -> basename_acc acc s = rev acc ++ s.
Proof.
  revert acc; induction s as [|c s IH]; intros acc H; cbn.
  - rewrite app_nil_r. reflexivity.
  - cbn in H. apply andb_true_iff in H as [H1 H2].
    destruct (c =? 47)%N; [discriminate|]. rewrite IH by exact H2. cbn.
    rewrite <- app_assoc. reflexivity.
Qed.

Lemma basename_acc_result acc s :
  forallb (fun c => negb (c =? 47)%N) acc = true ->
  forallb (fun c => negb (c =? 47)%N) (basename_acc acc s) = true.
Proof.
  revert acc; induction s as [|c s IH]; intros acc H; cbn.
  - rewrite forallb_forall in *. intros x Hx. apply H. apply in_rev. exact Hx.
  - destruct (c =? 47)%N eqn:E; apply IH; [reflexivity|].
    cbn. rewrite E, H. reflexivity.
Qed.

Lemma basename_idem p : basename (basename p) = basename p.
Proof.
  unfold basename at 1. rewrite basename_acc_noslash; [reflexivity|].
  apply basename_acc_result. reflexivity.
Qed.

(** What the sender must guarantee about one file. *)
Definition file_ok (bs : nat) (f : file) : Prop :=
  name_ok (basename (fst f)) = true /\
  forallb scalar (basename (fst f)) = true /\
  (Z.of_nat (num_blocks_of (length (snd f)) bs) < 256 ^ 5)%Z.

Section ReceiveProofs.
  Context {H : Type} (sha : bytes -> H).

  Definition as_received (f : file) : str * bytes := (basename (fst f), snd f).
  Definition as_hash (f : file) : str * H := (basename (fst f), sha (snd f)).

  Lemma encode_file_ok bs f :
    bs > 0 -> file_ok bs f ->
    exists frames, encode_file bs f = (frames, None) /\
      forall rest d h, receive_file sha (frames ++ rest) d h
                     = Ok (rest, as_received f :: d, as_hash f :: h).
  Proof.
    intros Hbs (Hn & Hs & Hb). destruct f as [path content]; cbn [fst snd] in *.
    unfold encode_file.
    assert (Hf : fits [EInt (Z.of_nat (num_blocks_of (length content) bs));
                       EStr (basename path)] LEN_FILES_HEADER).
    { constructor; [split; [lia|exact Hb]|]. constructor. exact Hs. }
    destruct (fits_encode_header _ _ Hf) as [hd Hhd]. rewrite Hhd.
    destruct (read_blocks_fuel (length content) bs content Hbs (le_n _))
      as (bl & E & Hc & Hl).
    rewrite E. cbn [emit1 emit_app]. eexists; split; [reflexivity|].
    intros rest d h. unfold receive_file. cbn [app recv].
    rewrite (header_roundtrip _ _ _ Hhd).
    destruct (basename path) as [|c0 nm] eqn:Ebn; [discriminate Hn|].
    cbn [visible filter]. rewrite <- Ebn, basename_idem, Ebn, Hn.
    rewrite Nat2Z.id, <- Hl, recv_n_app, Hc.
    unfold as_received, as_hash; cbn [fst snd]. rewrite Ebn. reflexivity.
  Qed.

  Lemma encode_files_ok bs fs :
    bs > 0 -> Forall (file_ok bs) fs ->
    exists frames, encode_files bs fs = (frames, None) /\
      forall rest d h, receive_files sha (length fs) (frames ++ rest) d h
         = Ok (rest, rev (map as_received fs) ++ d, rev (map as_hash fs) ++ h).
  Proof.
    intros Hbs HF. induction HF as [|f fs Hf HF IH].
    - exists []. split; reflexivity.
    - destruct (encode_file_ok bs f Hbs Hf) as (fr1 & E1 & R1).
      destruct IH as (fr2 & E2 & R2).
      cbn [encode_files]. rewrite E1. cbn [emit_app]. rewrite E2.
      eexists; split; [reflexivity|]. intros rest d h.
      cbn [length receive_files]. rewrite <- app_assoc, R1, R2.
      cbn [map rev]. rewrite <- !app_assoc. reflexivity.
  Qed.

  (** What a request must satisfy to be sendable. *)
  Definition request_ok (bs : nat) (command data : str) (fs : list file) : Prop :=
    command <> [] /\ forallb scalar command = true /\
    (exists b, utf8_encode data = Ok b /\
               (Z.of_nat (num_blocks_of (length b) bs) < 256 ^ 5)%Z) /\
    (Z.of_nat (length fs) < 256 ^ 2)%Z /\
    Forall (file_ok bs) fs.

  Lemma request_roundtrip bs command data fs :
    bs > 0 -> request_ok bs command data fs ->
    exists frames, client_encode bs command data fs = (frames, None) /\
      forall rest h,
        server_decode sha (frames ++ rest) h
        = Ok (command, data, rev (map as_received fs),
              rev (map as_hash fs) ++ h, rest).
  Proof.
    intros Hbs (Hne & Hsc & (b & Hb & Hnb) & Hnf & HF).
    unfold client_encode.
    destruct (split_message data bs) as [[n blocks]|] eqn:Es;
      [|unfold split_message in Es; rewrite Hb in Es; discriminate].
    assert (Hn : n = num_blocks_of (length b) bs).
    { unfold split_message in Es. rewrite Hb in Es. apply Ok_inj in Es. congruence. }
    assert (Hf : fits [EInt 1; EInt (Z.of_nat n); EInt (Z.of_nat (length fs));
                       EStr command] LEN_HEADER).
    { constructor; [cbn; lia|]. constructor; [subst n; split; [lia|exact Hnb]|].
      constructor; [split; [lia|exact Hnf]|]. constructor. exact Hsc. }
    destruct (fits_encode_header _ _ Hf) as [hd Hhd]. rewrite Hhd.
    destruct (encode_files_ok bs fs Hbs HF) as (fr & E & R).
    cbn [emit1 emit_app]. rewrite E. eexists; split; [reflexivity|].
    intros rest h. unfold server_decode. cbn [app recv].
    rewrite (header_roundtrip _ _ _ Hhd).
    destruct command as [|c0 command]; [congruence|]. cbn [visible filter].
    replace (1 =? VERSION)%Z with true by reflexivity. cbn [negb].
    rewrite Nat2Z.id, <- app_assoc, (join_split _ _ _ _ _ Hbs Es).
    rewrite Nat2Z.id, R, app_nil_r. reflexivity.
  Qed.

  Definition response_ok (bs : nat) (data : str) (fs : list file) : Prop :=
    (exists b, utf8_encode data = Ok b /\
               (Z.of_nat (num_blocks_of (length b) bs) < 256 ^ 5)%Z) /\
    (Z.of_nat (length fs) < 256 ^ 2)%Z /\
    Forall (file_ok bs) fs.

  Lemma response_roundtrip bs data fs :
    bs > 0 -> response_ok bs data fs ->
    exists frames, server_encode bs data fs = (frames, None) /\
      forall rest,
        client_decode sha (frames ++ rest) = Ok (data, rev (map as_received fs), rest).
  Proof.
    intros Hbs ((b & Hb & Hnb) & Hnf & HF).
    unfold server_encode.
    destruct (split_message data bs) as [[n blocks]|] eqn:Es;
      [|unfold split_message in Es; rewrite Hb in Es; discriminate].
    assert (Hn : n = num_blocks_of (length b) bs).
    { unfold split_message in Es. rewrite Hb in Es. apply Ok_inj in Es. congruence. }
    assert (Hf : fits [EInt 1; EInt (Z.of_nat n); EInt (Z.of_nat (length fs))] LEN_HEADER).
    { constructor; [cbn; lia|]. constructor; [subst n; split; [lia|exact Hnb]|].
      constructor; [split; [lia|exact Hnf]|]. constructor. }
    destruct (fits_encode_header _ _ Hf) as [hd Hhd]. unfold VERSION. rewrite Hhd.
    destruct (encode_files_ok bs fs Hbs HF) as (fr & E & R).
    cbn [emit1 emit_app]. rewrite E. eexists; split; [reflexivity|].
    intros rest. unfold client_decode. cbn [app recv].
    rewrite (header_roundtrip _ _ _ Hhd). cbn [visible filter].
    rewrite Nat2Z.id, <- app_assoc, (join_split _ _ _ _ _ Hbs Es).
    rewrite Nat2Z.id, R, app_nil_r. reflexivity.
  Qed.
End ReceiveProofs.

(** Converse: whatever the client manages to send completely satisfies the
    size conditions (so nothing is ever truncated silently). *)
Lemma emit_app_None a k fr :
  emit_app a k = (fr, None) ->
  exists f1 f2, a = (f1, None) /\ k tt = (f2, None) /\ fr = f1 ++ f2.
Proof.
  destruct a as [f1 [e|]]; cbn; [discriminate|].
  destruct (k tt) as [f2 r]; intros H; injection H as <- ->. eauto 10.
Qed.

Lemma client_encode_complete bs command data fs frames :
  client_encode bs command data fs = (frames, None) ->
  forallb scalar command = true /\
  (exists b, utf8_encode data = Ok b /\
             (Z.of_nat (num_blocks_of (length b) bs) < 256 ^ 5)%Z) /\
  (Z.of_nat (length fs) < 256 ^ 2)%Z /\
  Forall (fun f => forallb scalar (basename (fst f)) = true /\
     (Z.of_nat (num_blocks_of (length (snd f)) bs) < 256 ^ 5)%Z) fs.
Proof.
  unfold client_encode. intros H.
  destruct (split_message data bs) as [[n blocks]|] eqn:Es; [|discriminate].
  apply emit_app_None in H as (f1 & f2 & H1 & H2 & ->).
  apply emit_app_None in H2 as (f3 & f4 & _ & H4 & ->).
  unfold emit1 in H1. destruct (encode_header _ _) as [hd|] eqn:Eh; [|discriminate].
  apply encode_header_fits in Eh.
  inversion Eh as [| |? ? ? ? _ Eh1]; subst; clear Eh.
  inversion Eh1 as [| |? ? ? ? Hn Eh2]; subst; clear Eh1.
  inversion Eh2 as [| |? ? ? ? Hf Eh3]; subst; clear Eh2.
  inversion Eh3 as [|? Hs|]; subst; clear Eh3.
  split; [exact Hs|]. split.
  { unfold split_message in Es. destruct (utf8_encode data) as [b|]; [|discriminate].
    apply Ok_inj in Es. injection Es as <- _. exists b. split; [reflexivity|].
    change (Z.of_nat 5) with 5%Z in Hn. lia. }
  split; [change (Z.of_nat 2) with 2%Z in Hf; lia|].
  clear -H4. revert f4 H4. induction fs as [|f fs IH]; intros fr H; [constructor|].
  cbn [encode_files] in H.
  apply emit_app_None in H as (f1 & f2 & H1 & H2 & ->).
  constructor; [|eapply IH; eauto].
  unfold encode_file in H1. destruct f as [path content].
  apply emit_app_None in H1 as (f3 & f4' & H1 & _ & ->).
  unfold emit1 in H1. destruct (encode_header _ _) as [hd|] eqn:Eh; [|discriminate].
  apply encode_header_fits in Eh.
  inversion Eh as [| |? ? ? ? Hn Eh1]; subst. inversion Eh1 as [|? Hs|]; subst.
  cbn [fst snd]. split; [exact Hs|]. change (Z.of_nat 5) with 5%Z in Hn. lia.
Qed.

(** The real block size is positive. *)
Lemma BLOCK_SIZE_pos : BLOCK_SIZE > 0.
Proof. unfold BLOCK_SIZE. lia. Qed.
