(** Model of websocket/wshandle.go:44-87 (how a connection is dialled), httpclient/post.go and gosignal/gosignal.go.

    Strings and files are their bytes.  From published behaviour: strings.HasPrefix, the scheme of net/url, x509.CertPool.AppendCertsFromPEM (adds the
    certificates it finds, false if none), golang.org/x/net/websocket.DialConfig (TCP for ws, TLS for wss), crypto/tls verification as far as
    RootCAs and InsecureSkipVerify decide it, http.Header.Set with canonical keys, http.Request.AddCookie, http.Transport (TLS for https),
    signal.Notify (a send that does not wait).  Whether a URL can be parsed at all, what a PEM block holds, and what a server answers are parameters.
    Not modelled: redirects and anything else inside http.Client.Do, TimeOut. *)
From stdpp Require Import list.
From Coq Require Import ZArith.
Local Open Scope Z_scope.

(** strings.HasPrefix (websocket/wshandle.go:50,72; httpclient/post.go:29). *)
Fixpoint has_prefix (p s : list Z) : bool :=
  match p, s with
  | [], _ => true
  | a :: p, b :: s => (a =? b) && has_prefix p s
  | _, _ => false
  end.
(** "wss:", "ws:", "https:" (websocket/wshandle.go:50,72; httpclient/post.go:29); the schemes without the colon. *)
Definition wss_ : list Z := [119; 115; 115; 58].
Definition ws_ : list Z := [119; 115; 58].
Definition https_ : list Z := [104; 116; 116; 112; 115; 58].
Definition wss : list Z := [119; 115; 115].
Definition ws : list Z := [119; 115].
Definition http : list Z := [104; 116; 116; 112].
Definition https : list Z := [104; 116; 116; 112; 115].

(** The scheme of a URL: net/url getScheme and strings.ToLower (websocket/wshandle.go:75; httpclient/post.go:38). *)
Definition lower (c : Z) : Z := if (65 <=? c) && (c <=? 90) then c + 32 else c.
Definition letter (c : Z) : bool := (65 <=? c) && (c <=? 90) || (97 <=? c) && (c <=? 122).
Definition digitish (c : Z) : bool := (48 <=? c) && (c <=? 57) || (c =? 43) || (c =? 45) || (c =? 46).
Fixpoint scheme_from (first : bool) (s : list Z) : option (list Z) :=
  match s with
  | [] => None
  | c :: s =>
      if letter c || digitish c && negb first then match scheme_from false s with Some r => Some (lower c :: r) | None => None end
      else if (c =? 58) && negb first then Some [] else None
  end.
Definition scheme (s : list Z) : option (list Z) := scheme_from true s.

(** A certificate authority (websocket/wshandle.go:145,159). *)
Definition ca : Type := Z.
(** crypto/tls.Config as far as it is set: RootCAs ([None]: those of the system), InsecureSkipVerify (websocket/wshandle.go:53,62,70; httpclient/post.go:30). *)
Record tlsconf := Tls { roots : option (list ca); skip : bool }.
(** A server: who signed its certificate, and whether that is valid for its name (crypto/tls). *)
Record server := Server { signer : ca; named : bool }.
(** crypto/tls: does the client go on after the handshake?  [sys]: the CAs of the system. *)
Definition accepts (sys : list ca) (c : option tlsconf) (p : server) : bool :=
  match c with
  | None => bool_decide (signer p ∈ sys) && named p
  | Some c => skip c || bool_decide (signer p ∈ match roots c with Some r => r | None => sys end) && named p
  end.

(** websocket/wshandle.go:25-35 [Config]; a nil slice is [None]. *)
Record wscfg := WsCfg { url : list Z; certFiles : option (list Z); certBytes : option (list (list Z)) }.
(** What NewHandler does: an error before dialling, or DialConfig over TCP or TLS (websocket/wshandle.go:44-78). *)
Inductive dial := Refused | CertError | UrlError | Plain | OverTls (c : tlsconf).

Section ws.
(** os.ReadFile by number of the name, AppendCertsFromPEM, url.ParseRequestURI of Url and Origin (websocket/wshandle.go:147,152,162,75,76). *)
Context (read : Z -> option (list Z)) (pem : list Z -> list ca) (parses : bool).
(** loadCACertificatesFromBytes (websocket/wshandle.go:159-167). *)
Fixpoint load_bytes (pool : list ca) (bs : list (list Z)) : option (list ca) :=
  match bs with
  | [] => Some pool
  | b :: r => match pem b with [] => None | cs => load_bytes (pool ++ cs) r end
  end.
(** loadCACertificatesFromFiles (websocket/wshandle.go:144-157). *)
Fixpoint load_files (pool : list ca) (fs : list Z) : option (list ca) :=
  match fs with
  | [] => Some pool
  | f :: r => match read f with
              | None => None
              | Some b => match pem b with [] => None | cs => load_files (pool ++ cs) r end
              end
  end.
(** NewHandler up to DialConfig (websocket/wshandle.go:50-78): [tls] is config.TlsConfig; DialConfig looks at the scheme of Location. *)
Definition dial_with (u : list Z) (tls : option tlsconf) : dial :=
  if parses then match scheme u with
                 | Some s => if decide (s = ws) then Plain else if decide (s = wss) then OverTls (match tls with Some c => c | None => Tls None false end) else Refused
                 | None => UrlError
                 end
  else UrlError.
(** websocket/wshandle.go:44-78. *)
Definition NewHandler (cfg : wscfg) : dial :=
  if has_prefix wss_ (url cfg) then
    match certFiles cfg with
    | Some fs => match load_files [] fs with Some r => dial_with (url cfg) (Some (Tls (Some r) false)) | None => CertError end
    | None =>
        match certBytes cfg with
        | Some bs => match load_bytes [] bs with Some r => dial_with (url cfg) (Some (Tls (Some r) false)) | None => CertError end
        | None => dial_with (url cfg) (Some (Tls None true))
        end
    end
  else if has_prefix ws_ (url cfg) then dial_with (url cfg) None
  else Refused.
End ws.
(** Is a connection to this server made (websocket/wshandle.go:77)? *)
Definition connects (sys : list ca) (d : dial) (p : server) : bool :=
  match d with Plain => true | OverTls c => accepts sys (Some c) p | _ => false end.

(** ** httpclient/post.go *)
(** net/textproto.CanonicalMIMEHeaderKey (httpclient/post.go:44): a key with other characters than these stays as it is. *)
Definition tokench (c : Z) : bool :=
  letter c || (48 <=? c) && (c <=? 57) || bool_decide (c ∈ [33; 35; 36; 37; 38; 39; 42; 43; 45; 46; 94; 95; 96; 124; 126]).
Definition upper (c : Z) : Z := if (97 <=? c) && (c <=? 122) then c - 32 else c.
Fixpoint canon_from (up : bool) (k : list Z) : list Z :=
  match k with
  | [] => []
  | c :: k => (if up then upper c else lower c) :: canon_from (c =? 45) k
  end.
Definition canonical (k : list Z) : list Z := if forallb tokench k then canon_from true k else k.
(** http.Header with one value for each key (httpclient/post.go:44,48). *)
Notation header := (list (list Z * list Z)).
(** http.Header.Get and Set (httpclient/post.go:44). *)
Fixpoint hget (k : list Z) (h : header) : option (list Z) :=
  match h with [] => None | (k', v) :: h => if decide (k' = k) then Some v else hget k h end.
Definition hset (k v : list Z) (h : header) : header := (canonical k, v) :: filter (fun e => e.1 <> canonical k) h.
(** "Cookie", "; " (net/http Request.AddCookie; httpclient/post.go:48). *)
Definition cookie_ : list Z := [67; 111; 111; 107; 105; 101].
Definition add_cookie (c : list Z) (h : header) : header :=
  match hget cookie_ h with
  | Some (x :: r) => hset cookie_ ((x :: r) ++ [59; 32] ++ c) h
  | _ => hset cookie_ c h
  end.
(** A request: always POST (httpclient/post.go:38); [rbody] is [None] if there is no body (34-37). *)
Record request := Req { rurl : list Z; rbody : option (list Z); rhead : header; rclose : bool }.
(** What comes of it (httpclient/post.go:51-56): an error of Do, or the body, read whole or with an error. *)
Inductive answer := DoError | BodyError | Body (status : Z) (bs : list Z).
Section post.
(** http.NewRequest accepts the URL; what the server answers. *)
Context (valid : list Z -> bool) (do : option tlsconf -> request -> answer).
(** transport.TLSClientConfig (httpclient/post.go:28-31). *)
Definition post_tls (u : list Z) : option tlsconf := if has_prefix https_ u then Some (Tls None true) else None.
(** Post3 (httpclient/post.go:27-60).  [hs]: the entries of the map header in the order range visits them; [c]: the cookie as it is written.  The request made, if any, and
    _r ([None] if nil), err is not nil. *)
Definition Post3 (bs : list Z) (close : bool) (u : list Z) (hs : list (list Z * list Z)) (c : option (list Z)) : option request * (option (list Z) * bool) :=
  if valid u then
    let h := foldl (fun h e => hset e.1 e.2 h) [] hs in
    let h := match c with Some c => add_cookie c h | None => h end in
    let r := Req u (match bs with [] => None | _ => Some bs end) h close in
    (Some r, match do (post_tls u) r with DoError | BodyError => (None, true) | Body _ b => (Some b, false) end)
  else (None, (None, true)).
(** Post2, Post (httpclient/post.go:19-25). *)
Definition Post2 bs close u := Post3 bs close u [] None.
Definition Post bs u := Post2 bs false u.
End post.

(** ** gosignal/gosignal.go *)
(** sigChan (capacity 1) and whether the goroutine still waits; signals the function was called with (gosignal/gosignal.go:15-22). *)
Record listener := Lis { chan : option Z; waiting : bool; called : list Z }.
(** A signal arrives (os/signal sends without waiting), or the goroutine goes on (gosignal/gosignal.go:17-21). *)
Inductive sigev := Arrives (sig : Z) | Goes.
(** One of these (gosignal/gosignal.go:15-22); [sigs]: what was asked for, [] for all. *)
Definition sig_step (sigs : list Z) (l : listener) (e : sigev) : listener :=
  match e with
  | Arrives s =>
      if bool_decide (sigs = []) || bool_decide (s ∈ sigs)
      then match chan l with None => Lis (Some s) (waiting l) (called l) | Some _ => l end
      else l
  | Goes =>
      match chan l with
      | Some s => if waiting l then Lis None false (called l ++ [s]) else l
      | None => l
      end
  end.
(** ListenSignalEvent and whatever follows (gosignal/gosignal.go:15-22). *)
Definition listen (sigs : list Z) (evs : list sigev) : listener := foldl (sig_step sigs) (Lis None true []) evs.
