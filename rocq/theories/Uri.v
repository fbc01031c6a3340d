(** Connection URIs: osp/core/session/transport/transport_session_client.py:158-173
    [_parse_uri], and the parts of Python's urllib.parse it uses (version 3.11).

    Simplifications: (1) no ';' parameters: urlparse splits them off and
    urlunparse puts them back for some schemes, not for ws and wss; (2) of the
    checks of urlsplit, only the one for unbalanced brackets is modelled, not the
    check of an IPv6 address in brackets nor the NFKC check of non-ASCII hosts. *)
From Coq Require Import List Arith NArith Lia Bool String.
From Verif Require Import Prelude Utf8 Text Names.
Import ListNotations.
Local Open Scope nat_scope.
Local Open Scope list_scope.

Definition colon : N := 58%N.
Definition at_sign : N := 64%N.
Definition slash : N := 47%N.
Definition qmark : N := 63%N.
Definition hash : N := 35%N.
Definition ldelim : N := 91%N.
Definition rdelim : N := 93%N.

(** the longest prefix without a character of P, and the rest *)
Fixpoint cut (P : N -> bool) (s : str) : str * str :=
  match s with
  | [] => ([], [])
  | c :: s' => if P c then ([], s) else let '(a, b) := cut P s' in (c :: a, b)
  end.

(** [s.partition(c)]: None if c is not in s *)
Definition partition (c : N) (s : str) : str * option str :=
  match cut (N.eqb c) s with
  | (a, []) => (a, None)
  | (a, _ :: b) => (a, Some b)
  end.
(** [s.rpartition(c)]: what is before the last c (None if there is none), what is after *)
Definition rpartition (c : N) (s : str) : option str * str :=
  match partition c (rev s) with
  | (a, None) => (None, rev a)
  | (a, Some b) => (Some (rev b), rev a)
  end.

(** urllib.parse.scheme_chars *)
Definition scheme_char (c : N) : bool :=
  is_upper c || is_lower c || is_digit c || N.eqb c 43 || N.eqb c 45 || N.eqb c 46.

(** urllib.parse._WHATWG_C0_CONTROL_OR_SPACE, _UNSAFE_URL_BYTES_TO_REMOVE *)
Definition blank (c : N) : bool := (c <=? 32)%N.
Definition unsafe (c : N) : bool := N.eqb c 9 || N.eqb c 13 || N.eqb c 10.
Fixpoint lstrip (s : str) : str :=
  match s with c :: s' => if blank c then lstrip s' else s | [] => [] end.

Definition has (c : N) (s : str) : bool := existsb (N.eqb c) s.

Record parsed := Parsed { p_scheme : str; p_netloc : str; p_path : str; p_query : str; p_frag : str }.

(** urllib.parse.urlsplit *)
Definition urlsplit (url0 : str) : res parsed :=
  let url := filter (fun c => negb (unsafe c)) (lstrip url0) in
  let '(scheme, url) :=
    match cut (N.eqb colon) url with
    | (x :: a, _ :: b) => if (is_upper x || is_lower x) && forallb scheme_char (x :: a)
                          then (lower (x :: a), b) else ([], url)
    | _ => ([], url)
    end in
  let '(netloc, url) :=
    match url with
    | a :: b :: r => if N.eqb a slash && N.eqb b slash
                     then cut (fun c => N.eqb c slash || N.eqb c qmark || N.eqb c hash) r else ([], url)
    | _ => ([], url)
    end in
  if negb (Bool.eqb (has ldelim netloc) (has rdelim netloc)) then Err ValueError
  else
    let '(url, frag) := match partition hash url with (a, Some f) => (a, f) | (a, None) => (a, []) end in
    let '(path, query) := match partition qmark url with (a, Some q) => (a, q) | (a, None) => (a, []) end in
    Ok (Parsed scheme netloc path query frag).

(** urllib.parse.uses_netloc *)
Definition uses_netloc : list str :=
  map lit [""; "ftp"; "http"; "gopher"; "nntp"; "telnet"; "imap"; "wais"; "file"; "mms"; "https"; "shttp"; "snews";
           "prospero"; "rtsp"; "rtspu"; "rsync"; "svn"; "svn+ssh"; "sftp"; "nfs"; "git"; "git+ssh"; "ws"; "wss"]%string.

(** urllib.parse.urlunsplit *)
Definition urlunsplit (p : parsed) : str :=
  let url := p_path p in
  let url := if negb (str_eqb (p_netloc p) []) ||
                (negb (str_eqb (p_scheme p) []) && existsb (str_eqb (p_scheme p)) uses_netloc) ||
                startswith [slash; slash] url
             then [slash; slash] ++ p_netloc p ++
                  (match url with [] => [] | c :: _ => if N.eqb c slash then url else slash :: url end)
             else url in
  let url := if str_eqb (p_scheme p) [] then url else p_scheme p ++ colon :: url in
  let url := if str_eqb (p_query p) [] then url else url ++ qmark :: p_query p in
  if str_eqb (p_frag p) [] then url else url ++ hash :: p_frag p.

(** urllib.parse._NetlocResultMixinStr._userinfo: ParseResult.username, .password *)
Definition userinfo (netloc : str) : option str * option str :=
  match rpartition at_sign netloc with
  | (None, _) => (None, None)
  | (Some info, _) => let '(user, pw) := partition colon info in (Some user, pw)
  end.

(** [if s] for an optional string *)
Definition truthy (s : option str) : bool :=
  match s with Some (_ :: _) => true | _ => false end.

(** transport_session_client.py:158-173 [_parse_uri] *)
Definition parse_uri (uri : option str) : res (option str * option str * option str) :=
  match uri with
  | None => Ok (None, None, None)
  | Some uri =>
      match urlsplit uri with
      | Err e => Err e
      | Ok p =>
          let '(user, pw) := userinfo (p_netloc p) in
          if truthy user || truthy pw then
            match nth_error (split_on at_sign (p_netloc p)) 1 with
            | Some host => Ok (Some (urlunsplit (Parsed (p_scheme p) host (p_path p) (p_query p) (p_frag p))), user, pw)
            | None => Err IndexError
            end
          else Ok (Some (urlunsplit p), user, pw)
      end
  end.
