(** Specification vocabulary for completed handshakes: the key schedule of RFC 8446 and where its inputs come from. *)
From Verif Require Import Base Handshake Crypto Messages Pki SigSpec Negotiation NegotiationSpec Machine Client Cookie Server Conn RunSpec.

(** ** The key schedule (RFC 8446 section 7.1) *)

Definition client_handshake_secret (h : rfc_hash) (early dhe transcript : bytes) : bytes :=
  Derive_Secret h (Handshake_Secret h early dhe) "c hs traffic" transcript.
Definition server_handshake_secret (h : rfc_hash) (early dhe transcript : bytes) : bytes :=
  Derive_Secret h (Handshake_Secret h early dhe) "s hs traffic" transcript.
(** The secrets of a session: from the master secret, the transcript up to the server's Finished and the one up to the
    client's. *)
Definition session_secrets (h : rfc_hash) (early dhe to_server_finished to_client_finished : bytes) (k : connected) : Prop :=
  let master := Master_Secret h (Handshake_Secret h early dhe) in
  sc_cts k = Derive_Secret h master "c ap traffic" to_server_finished /\
  sc_sts k = Derive_Secret h master "s ap traffic" to_server_finished /\
  sc_exporter k = Derive_Secret h master "exp master" to_server_finished /\
  sc_resumption k = Derive_Secret h master "res master" to_client_finished.

(** ** Messages *)

(** The value of an extension. *)
Definition ext_value {A} (l : list ext) (t : N) (un : bytes -> res (A * nat)) : option A :=
  match find (fun e => e_type e =? t) l with
  | None => None
  | Some e => match un (e_data e) with Ok (x, n) => Some x | _ => None end
  end.
Definition value_or {A} (l : list ext) (t : N) (un : bytes -> res (A * nat)) (d : A) : A := match ext_value l t un with Some v => v | None => d end.
(** The version of a ClientHello: that of TLS 1.2, or what stands for it in DTLS. *)
Definition hello_version (cfg : config) : N := if cf_useDTLS cfg then 65277 else 771.
(** The cache a connection starts with: none configured is an empty one. *)
Definition start_cache (cfg : config) (psks : cache) : cache := match cf_psks cfg with None => [] | Some _ => psks end.

(** ** A client's inputs *)

(** The extensions [l] of a ClientHello for the suites [suites]: it has the key shares [shares] and the cookie, if any.
    If the client has a PSK for the server, it has only that, and all suites have its hash. *)
Definition offered_exts (cfg : config) (psks : cache) (cookie : option bytes) (shares : list kshare) (suites : list N) (l : list ext) : Prop :=
  ext_value l 51 ks_client_unmarshal = Some shares /\ ext_value l 44 cookie_unmarshal = cookie /\
  match cache_get (start_cache cfg psks) (cf_serverName cfg) with
  | None => ext_value l 41 psk_client_unmarshal = None
  | Some key => (exists age binder, ext_value l 41 psk_client_unmarshal = Some ([mkPid (psk_identity key) age], [binder])) /\
  forall id s s', In id suites -> cipherSuiteMap id = Some s -> cipherSuiteMap (psk_suite key) = Some s' -> s_hash s = s_hash s'
  end.
(** A ClientHello of the client. (An extension handler may change its extensions.) *)
Definition offers (cfg : config) (psks : cache) (cookie : option bytes) (shares : list kshare) (hello : hmsg) : Prop :=
  is_type hello 1 /\ map ks_group shares = cf_groups (cfg_init cfg) /\
  exists ch, ch_marshal ch = Ok (hm_body hello) /\ ch_version ch = hello_version cfg /\
  (cf_extensionHandler cfg = None -> offered_exts cfg psks cookie shares (ch_suites ch) (ch_exts ch)).
(** The messages before the last ClientHello, each pair a ClientHello and a HelloRetryRequest, and the cookie of the last
    one, to go with the next ClientHello. *)
Inductive client_retries (cfg : config) (psks : cache) : list event -> option bytes -> Prop :=
| retries_none : client_retries cfg psks [] None
| retries_more evs cookie shares hello m sh n cookie' : client_retries cfg psks evs cookie -> offers cfg psks cookie shares hello ->
    is_type m 2 -> is_retry m = true -> sh_unmarshal (hm_body m) = Ok (sh, n) ->
    (cf_extensionHandler cfg = None -> ext_value (sh_exts sh) 44 cookie_unmarshal = Some cookie') ->
    client_retries cfg psks (evs ++ [Sent hello; Received m]) (Some cookie').
(** The early secret: without a PSK it is that of zeros; with one, that of the PSK the client has for the server. The
    third case is a gap in the code: a server may select a PSK although the client has none. *)
Inductive client_early (P : prims) (psks : cache) (name : bytes) (h : rfc_hash) : bool -> bytes -> Prop :=
| early_none : client_early P psks name h false (Early_Secret h (zero h))
| early_psk key s : cache_get psks name = Some key -> cipherSuiteMap (psk_suite key) = Some s ->
    client_early P psks name h true (Early_Secret (hash_of P s) (psk_key key))
| early_gap : cache_get psks name = None -> client_early P psks name h true [].
(** A key made for a group, from random values of the caller's source. *)
Definition own_key (Q : oracle -> Prop) (P : prims) (g : N) (pub priv : bytes) : Prop := exists o i, Q o /\ newKeyShare P (o_keys o i) g = Ok (pub, priv).
(** The (EC)DHE input, from the server's key share and a key of the client that it has offered the public part of: zeros
    if there is no key share, or if the agreement fails. *)
Inductive client_dhe (Q : oracle -> Prop) (P : prims) (h : rfc_hash) (shares : list kshare) : option kshare -> bytes -> Prop :=
| dhe_none : client_dhe Q P h shares None (zero h)
| dhe_share ks pub priv dhe : own_key Q P (ks_group ks) pub priv -> In (mkKs (ks_group ks) pub) shares ->
    keyAgreement P (ks_group ks) (ks_data ks) priv = Ok dhe -> client_dhe Q P h shares (Some ks) dhe
| dhe_failed ks pub priv e : own_key Q P (ks_group ks) pub priv -> In (mkKs (ks_group ks) pub) shares ->
    keyAgreement P (ks_group ks) (ks_data ks) priv = Err e -> client_dhe Q P h shares (Some ks) (zero h).
(** A ServerHello selects the client's PSK by its index 0, and has a key share or none. Its extensions are what the
    client acts on unless an extension handler changes them. *)
Definition selects (exts : list ext) (psk : bool) (share : option kshare) : Prop :=
  psk = match ext_value exts 41 psk_server_unmarshal with Some i => i =? 0 | None => false end /\
  share = ext_value exts 51 ks_server_unmarshal.
Definition is_some {A} (x : option A) : bool := match x with Some _ => true | None => false end.
(** EncryptedExtensions accept early data and name a protocol, the first in a list. *)
Definition accepts (exts : list ext) (early : bool) (proto : bytes) : Prop :=
  early = is_some (ext_value exts 42 early_unmarshal) /\ proto = hd [] (value_or exts 16 alpn_unmarshal []).

(** ** Authentication *)

(** A certificate chain accepted by the client's configuration: verified for the server name unless that is switched
    off, and accepted by VerifyPeerCertificate if there is one. *)
Definition chain_accepted (Q : oracle -> Prop) (X : pki) (cfg : config) (leaf : bytes) (rest : list bytes) (chains : list (list bytes)) : Prop :=
  exists o, Q o /\
  (if cf_insecureSkipVerify cfg then chains = []
   else x_chain X (cf_rootCAs cfg) (cf_serverName cfg) (match cf_time cfg with Some f => o_time o f | None => o_now o end) leaf rest = Some chains) /\
  match cf_verifyPeerCertificate cfg with None => True | Some v => o_verifyPeer o v (leaf :: rest) chains = true end.
(** The server's flight [flight], after the events [evs], has a certificate chain that is accepted and a signature by its
    first certificate over the transcript up to the Certificate message. *)
Definition server_certified (Q : oracle -> Prop) (P : prims) (X : pki) (cfg : config) (s : suite) (evs flight : list event) (peer : list bytes) (chains : list (list bytes)) : Prop :=
  let t := transcript (digest P (s_hash s)) in
  exists before certm cvm cert cv leaf rest,
    flight = before ++ [Received certm; Received cvm] /\ Forall (fun e => exists m, e = Received m /\ (is_type m 8 \/ is_type m 13)) before /\
    is_type certm 11 /\ is_type cvm 15 /\
    safeUnmarshal (cert_unmarshal (x_parses X)) (hm_body certm) = Ok cert /\ safeUnmarshal cv_unmarshal (hm_body cvm) = Ok cv /\
    map ce_cert (ct_list cert) = leaf :: rest /\ peer = leaf :: rest /\ chain_accepted Q X cfg leaf rest chains /\
    valid_signature P X (cv_alg cv) leaf (signed_content server_context (digest P (s_hash s) (t (evs ++ before ++ [Received certm])))) (cv_sig cv).

(** ** A client's complete handshake *)

(** The events of a client's handshake that ended with the session [c]: hellos, the server's flight [flight] after its
    ServerHello, its Finished, and the client's last flight. *)
Definition client_run (Q : oracle -> Prop) (P : prims) (X : pki) (cfg : config) (psks : cache) (evs : list event) (c : connected) : Prop :=
  exists hellos cookie shares hello shm eem flight fin last finm sh n share exts es dh,
    let h := hash_of P (sc_suite c) in
    let to_hello := hellos ++ [Sent hello; Received shm] in
    let t := transcript (rh_hash h) in
    evs = to_hello ++ flight ++ Received fin :: map Sent (last ++ [finm]) /\ client_retries cfg psks hellos cookie /\ offers cfg psks cookie shares hello /\
    is_type shm 2 /\ is_retry shm = false /\ sh_unmarshal (hm_body shm) = Ok (sh, n) /\
    cipherSuiteMap (sh_suite sh) = Some (sc_suite c) /\ p_suite (sc_params c) = sh_suite sh /\
    (cf_extensionHandler cfg = None -> selects (sh_exts sh) (p_usingPSK (sc_params c)) share) /\ p_usingDH (sc_params c) = is_some share /\
    client_early P (start_cache cfg psks) (cf_serverName cfg) h (p_usingPSK (sc_params c)) es /\ client_dhe Q P h shares share dh /\
    hd_error flight = Some (Received eem) /\ is_type eem 8 /\ safeUnmarshal ee_unmarshal (hm_body eem) = Ok exts /\
    (cf_extensionHandler cfg = None -> accepts exts (p_usingEarlyData (sc_params c)) (p_nextProto (sc_params c))) /\
    Forall (fun m => is_type m 5 \/ is_type m 11 \/ is_type m 15) last /\
    is_type fin 20 /\ hm_body fin = verify_data h (server_handshake_secret h es dh (t to_hello)) (t (to_hello ++ flight)) /\
    is_type finm 20 /\ hm_body finm = verify_data h (client_handshake_secret h es dh (t to_hello)) (t (to_hello ++ flight ++ Received fin :: map Sent last)) /\
    session_secrets h es dh (t (to_hello ++ flight ++ [Received fin])) (t evs) c /\ sc_isClient c = true /\
    (if p_usingPSK (sc_params c) then exists eem, flight = [Received eem] /\ is_type eem 8 /\ sc_peer c = [] /\ sc_chains c = []
     else server_certified Q P X cfg (sc_suite c) to_hello flight (sc_peer c) (sc_chains c)).
(** The session of a connection that has completed: all but the traffic secrets, which key updates change. *)
Definition same_session (k k' : connected) : Prop :=
  sc_params k' = sc_params k /\ sc_isClient k' = sc_isClient k /\ sc_suite k' = sc_suite k /\ sc_resumption k' = sc_resumption k /\
  sc_exporter k' = sc_exporter k /\ sc_peer k' = sc_peer k /\ sc_chains k' = sc_chains k.

(** ** A server's inputs *)

(** The values of the extensions of a ClientHello, with what stands for an absent one. *)
Definition hello_reads (l : list ext) (x : chexts) : Prop :=
  cx_versions x = value_or l 43 versions_client_unmarshal [] /\ cx_name x = value_or l 0 sni_unmarshal [] /\
  cx_groups x = value_or l 10 list16_unmarshal [] /\ cx_schemes x = value_or l 13 list16_unmarshal [] /\
  cx_shares x = value_or l 51 ks_client_unmarshal [] /\ cx_psk x = value_or l 41 psk_client_unmarshal ([], []) /\
  cx_protos x = value_or l 16 alpn_unmarshal [] /\ cx_modes x = value_or l 45 modes_unmarshal [] /\ cx_cookie x = value_or l 44 cookie_unmarshal [].
(** The early secret: that of zeros, or of a PSK the server has under an offered identity, whose binder is right for an
    allowed context. The identity's index is what the server sends (16 bits of it). *)
Inductive server_early_secret (P : prims) (psks : cache) (offer : list pskid * list bytes) (allowed : bytes -> Prop) (h : rfc_hash) : option N -> bytes -> Prop :=
| server_early_none : server_early_secret P psks offer allowed h None (Early_Secret h (zero h))
| server_early_psk j id b key s context : nth_error (fst offer) j = Some id -> nth_error (snd offer) j = Some b ->
    cache_get psks (hexEncode (pi_identity id)) = Some key -> cipherSuiteMap (psk_suite key) = Some s ->
    b = binder8446 (digest P (s_hash s)) (hmac P (s_hash s)) (hsize (s_hash s)) (psk_isResumption key) (psk_key key) context ->
    allowed context -> server_early_secret P psks offer allowed h (Some (N.of_nat j mod 2 ^ 16)) (Early_Secret h (psk_key key)).
(** What a binder covers: the ClientHello up to the binders, after what a cookie stands for. *)
Definition bound_to (cfg : config) (ch : clientHello) (token context : bytes) : Prop :=
  exists base hello, context = base ++ hello /\ (token = [] -> base = []) /\ (cf_extensionHandler cfg = None -> ch_truncated ch = Ok hello).
(** The (EC)DHE input: zeros, or from a share of the client for a group the server supports and a key of the server, whose
    public part the server sends. *)
Inductive server_dhe (Q : oracle -> Prop) (P : prims) (groups : list N) (shares : list kshare) (h : rfc_hash) : option kshare -> bytes -> Prop :=
| server_dhe_none : server_dhe Q P groups shares h None (zero h)
| server_dhe_share ks pub priv dhe : In ks shares -> In (ks_group ks) groups -> own_key Q P (ks_group ks) pub priv ->
    keyAgreement P (ks_group ks) (ks_data ks) priv = Ok dhe -> server_dhe Q P groups shares h (Some (mkKs (ks_group ks) pub)) dhe.
(** The server's ServerHello, with the identity and the key share selected, and its EncryptedExtensions. (An extension
    handler may change their extensions.) *)
Definition server_hello (cfg : config) (session : bytes) (suite : N) (selected : option N) (share : option kshare) (m : hmsg) : Prop :=
  is_type m 2 /\ exists random exts, sh_marshal (mkSh 771 random session suite 0 exts) = Ok (hm_body m) /\
    (cf_extensionHandler cfg = None -> ext_value exts 41 psk_server_unmarshal = selected /\ ext_value exts 51 ks_server_unmarshal = share).
Definition server_extensions (cfg : config) (early : bool) (proto : bytes) (m : hmsg) : Prop :=
  is_type m 8 /\ exists exts, ee_marshal exts = Ok (hm_body m) /\ (cf_extensionHandler cfg = None -> accepts exts early proto).

(** ** Cookies *)

(** A token opens to a cookie that the handler accepts, and a cookie is sealed in a token, under the protector [pr]. *)
Definition opens (Q : oracle -> Prop) (cfg : config) (pr : N) (token : bytes) (c : cookie) : Prop :=
  exists o plain, Q o /\ o_decodeToken o pr token = Some plain /\ cookie_of plain = Ok c /\ forall h, cf_cookieHandler cfg = Some h -> o_validate o h (co_app c) = true.
Definition seals (Q : oracle -> Prop) (pr : N) (c : cookie) (token : bytes) : Prop :=
  exists o plain, Q o /\ co_marshal c = Ok plain /\ o_newToken o pr plain = Some token.
(** The protector is the configured one; if none is configured it is one made for the connection. *)
Definition protects (cfg : config) (pr : N) : Prop := forall p, cf_cookieProtector cfg = Some p -> pr = p.
(** A HelloRetryRequest for a suite, with a cookie. *)
Definition retry_with (suite : N) (session token : bytes) (m : hmsg) : Prop :=
  exists versions cookie, versions_server_marshal [772] = Ok versions /\ cookie_marshal token = Ok cookie /\
    sh_marshal (mkSh 771 retry_random session suite 0 [mkExt 43 versions; mkExt 44 cookie]) = Ok (hm_body m).
(** The header of a message is that of the transport, for its whole body. *)
Definition framed (cfg : config) (m : hmsg) : Prop := hm_datagram m = cf_useDTLS cfg /\ hm_length m = len (hm_body m) mod 2 ^ 32.
(** The messages before the last ClientHello: ClientHellos without a cookie, each answered by a HelloRetryRequest with a
    cookie that seals a suite and the hash of the ClientHello. (An extension handler may change what is sent.) *)
Inductive retried (Q : oracle -> Prop) (P : prims) (cfg : config) (pr : N) : list event -> Prop :=
| retried_nil : retried Q P cfg pr []
| retried_more evs hello ch m suite s app token : retried Q P cfg pr evs -> cf_requireCookie cfg = true -> is_type hello 1 ->
    safeUnmarshal (ch_unmarshal (hello_version cfg)) (hm_body hello) = Ok ch -> is_type m 2 -> is_retry m = true -> framed cfg m ->
    cipherSuiteMap suite = Some s -> seals Q pr (mkCookie suite (digest P (s_hash s) (hm_marshal hello)) app) token ->
    (cf_extensionHandler cfg = None -> retry_with suite (ch_session ch) token m) ->
    retried Q P cfg pr (evs ++ [Received hello; Sent m]).
(** What the transcript starts with before the last ClientHello: nothing, or what the cookie in it stands for: a first
    ClientHello, and a HelloRetryRequest if the server asks for cookies. A server that does goes on without a cookie only
    if its handler gives none. *)
Inductive server_prefix (Q : oracle -> Prop) (cfg : config) (pr suite : N) (session : bytes) : bytes -> bytes -> Prop :=
| prefix_none : cf_requireCookie cfg = false -> server_prefix Q cfg pr suite session [] []
| prefix_declined o h : Q o -> cf_cookieHandler cfg = Some h -> o_generate o h = Some None -> server_prefix Q cfg pr suite session [] []
| prefix_cookie token c : token <> [] -> opens Q cfg pr token c -> co_suite c = suite -> cf_requireCookie cfg = false ->
    server_prefix Q cfg pr suite session token (synthetic (co_hash c))
| prefix_retry token c m : token <> [] -> opens Q cfg pr token c -> co_suite c = suite -> cf_requireCookie cfg = true ->
    is_type m 2 -> is_retry m = true -> framed cfg m -> (cf_extensionHandler cfg = None -> retry_with suite session token m) ->
    server_prefix Q cfg pr suite session token (synthetic (co_hash c) ++ hm_marshal m).

(** ** A server's complete handshake *)

(** The client's messages [auth] between the server's Finished and its own, after the transcript [t]: none, an empty
    Certificate, or a Certificate and a signature by its first certificate over the transcript up to it. *)
Inductive client_messages (Q : oracle -> Prop) (P : prims) (X : pki) (cfg : config) (s : suite) (t : bytes) : list event -> list bytes -> Prop :=
| client_silent : client_messages Q P X cfg s t [] []
| client_empty certm cert : is_type certm 11 -> safeUnmarshal (cert_unmarshal (x_parses X)) (hm_body certm) = Ok cert -> ct_list cert = [] ->
    client_messages Q P X cfg s t [Received certm] []
| client_proved certm cert cvm cv leaf rest o : Q o -> is_type certm 11 -> is_type cvm 15 ->
    safeUnmarshal (cert_unmarshal (x_parses X)) (hm_body certm) = Ok cert -> safeUnmarshal cv_unmarshal (hm_body cvm) = Ok cv ->
    map ce_cert (ct_list cert) = leaf :: rest ->
    (forall v, cf_verifyPeerCertificate cfg = Some v -> o_verifyPeer o v (leaf :: rest) [] = true) ->
    valid_signature P X (cv_alg cv) leaf (signed_content server_context (digest P (s_hash s) (t ++ hm_marshal certm))) (cv_sig cv) ->
    client_messages Q P X cfg s t [Received certm; Received cvm] (leaf :: rest).

(** The events of a server's handshake that ended with the session [c]: the last ClientHello and the ServerHello, the
    rest [flight] of the server's flight, its Finished, the client's EndOfEarlyData if early data was used, its
    authentication and its Finished. [pre] stands for what came before the ClientHello. *)
Definition server_run (Q : oracle -> Prop) (P : prims) (X : pki) (cfg : config) (psks : cache) (evs : list event) (c : connected) : Prop :=
  exists before hello shm eem flight sfin early auth fin ch x pr pre selected share es dh,
    let h := hash_of P (sc_suite c) in
    let to_hello := [Received hello; Sent shm] in
    let t evs := pre ++ encoding evs in
    evs = before ++ to_hello ++ flight ++ Sent sfin :: early ++ auth ++ [Received fin] /\ protects cfg pr /\ retried Q P cfg pr before /\
    is_type hello 1 /\ server_hello cfg (ch_session ch) (p_suite (sc_params c)) selected share shm /\
    hd_error flight = Some (Sent eem) /\ server_extensions cfg (p_usingEarlyData (sc_params c)) (p_nextProto (sc_params c)) eem /\
    Forall (fun e => exists m, e = Sent m /\ (is_type m 8 \/ is_type m 11 \/ is_type m 13 \/ is_type m 15)) flight /\ is_type sfin 20 /\ is_type fin 20 /\
    safeUnmarshal (ch_unmarshal (hello_version cfg)) (hm_body hello) = Ok ch /\ (cf_extensionHandler cfg = None -> hello_reads (ch_exts ch) x) /\
    cipherSuiteMap (p_suite (sc_params c)) = Some (sc_suite c) /\ In (p_suite (sc_params c)) (ch_suites ch) /\
    server_prefix Q cfg pr (p_suite (sc_params c)) (ch_session ch) (cx_cookie x) pre /\
    p_usingPSK (sc_params c) = is_some selected /\ p_usingDH (sc_params c) = is_some share /\
    server_early_secret P (start_cache cfg psks) (cx_psk x) (bound_to cfg ch (cx_cookie x)) h selected es /\
    server_dhe Q P (cf_groups (cfg_init cfg)) (cx_shares x) h share dh /\
    hm_body sfin = verify_data h (server_handshake_secret h es dh (t to_hello)) (t (to_hello ++ flight)) /\
    (if p_usingEarlyData (sc_params c) then exists m, early = [Received m] /\ is_type m 5 else early = []) /\
    client_messages Q P X cfg (sc_suite c) (t (to_hello ++ flight ++ Sent sfin :: early)) auth (sc_peer c) /\
    (p_usingClientAuth (sc_params c) = false <-> auth = []) /\ p_usingClientAuth (sc_params c) = negb (p_usingPSK (sc_params c)) && cf_requireClientAuth cfg /\
    hm_body fin = verify_data h (client_handshake_secret h es dh (t to_hello)) (t (to_hello ++ flight ++ Sent sfin :: early ++ auth)) /\
    session_secrets h es dh (t (to_hello ++ flight ++ [Sent sfin])) (t (to_hello ++ flight ++ Sent sfin :: early ++ auth ++ [Received fin])) c /\
    sc_isClient c = false /\ sc_chains c = [].
(** DecodeToken inverts NewToken. *)
Definition inverts (Q : oracle -> Prop) : Prop := forall o o' pr d t, Q o -> Q o' -> o_newToken o pr d = Some t -> o_decodeToken o' pr t = Some d.
