(** Model of /repo/state-machine.go and of the types shared by the client and server state machines. *)
From Verif Require Import Base Syntax Frame Record Timer Handshake Crypto Messages Pki Negotiation.

(** ** Alerts *)

(** alert.go:17-52, those that are used. *)
Definition AlertCloseNotify : N := 0.
Definition AlertUnexpectedMessage : N := 10.
Definition AlertBadRecordMAC : N := 20.
Definition AlertHandshakeFailure : N := 40.
Definition AlertBadCertificate : N := 42.
Definition AlertIllegalParameter : N := 47.
Definition AlertAccessDenied : N := 49.
Definition AlertDecodeError : N := 50.
Definition AlertDecryptError : N := 51.
Definition AlertProtocolVersion : N := 70.
Definition AlertInternalError : N := 80.
Definition AlertNoRenegotiation : N := 100.
Definition AlertMissingExtension : N := 109.
Definition AlertNoApplicationProtocol : N := 120.
Definition AlertStatelessRetry : N := 253.
Definition AlertWouldBlock : N := 254.

(** Turning an error into an alert: [if err != nil { return nil, nil, a }]. *)
Definition or_alert {A} (r : res A) (a : N) : res A := match r with Err _ => Err (EAlert a) | _ => r end.
Definition alert {A} (a : N) : res A := Err (EAlert a).

(** ** Configuration *)

(** conn.go:68-137 without the mutex. Interfaces and functions are named by numbers, [None] being nil; what they
    do is part of the oracle below. The PSK cache is likewise named; its contents are in the world. [nil] and
    empty slices are not told apart by any code. *)
Record config := mkCfg {
  cf_serverName : bytes;
  cf_sendSessionTickets : bool; cf_ticketLifetime : N; cf_ticketLen : Z; cf_earlyDataLifetime : N;
  cf_allowEarlyData : bool; cf_requireCookie : bool;
  cf_cookieHandler : option N; cf_cookieProtector : option N; cf_extensionHandler : option N;
  cf_requireClientAuth : bool;
  cf_time : option N; cf_rootCAs : option (list bytes); cf_insecureSkipVerify : bool;
  cf_certificates : list keypair; cf_verifyPeerCertificate : option N;
  cf_cipherSuites : list N; cf_groups : list N; cf_signatureSchemes : list N; cf_nextProtos : list bytes;
  cf_psks : option N; cf_pskModes : list N;
  cf_nonBlocking : bool; cf_useDTLS : bool; cf_recordLayer : option N
}.
Definition set_suites (c : config) (l : list N) : config :=
  mkCfg (cf_serverName c) (cf_sendSessionTickets c) (cf_ticketLifetime c) (cf_ticketLen c) (cf_earlyDataLifetime c)
    (cf_allowEarlyData c) (cf_requireCookie c) (cf_cookieHandler c) (cf_cookieProtector c) (cf_extensionHandler c)
    (cf_requireClientAuth c) (cf_time c) (cf_rootCAs c) (cf_insecureSkipVerify c) (cf_certificates c)
    (cf_verifyPeerCertificate c) l (cf_groups c) (cf_signatureSchemes c) (cf_nextProtos c) (cf_psks c) (cf_pskModes c)
    (cf_nonBlocking c) (cf_useDTLS c) (cf_recordLayer c).
Definition set_protector (c : config) (p : option N) : config :=
  mkCfg (cf_serverName c) (cf_sendSessionTickets c) (cf_ticketLifetime c) (cf_ticketLen c) (cf_earlyDataLifetime c)
    (cf_allowEarlyData c) (cf_requireCookie c) (cf_cookieHandler c) p (cf_extensionHandler c)
    (cf_requireClientAuth c) (cf_time c) (cf_rootCAs c) (cf_insecureSkipVerify c) (cf_certificates c)
    (cf_verifyPeerCertificate c) (cf_cipherSuites c) (cf_groups c) (cf_signatureSchemes c) (cf_nextProtos c) (cf_psks c)
    (cf_pskModes c) (cf_nonBlocking c) (cf_useDTLS c) (cf_recordLayer c).

(** ** What a step obtains from outside *)

(** One value of this type stands for everything a single call obtains from outside the package: the time, random
    bytes ([None] is an error) and the answers of the application's handlers. A step that calls a handler twice
    with the same arguments gets the same answer. *)
Record oracle := mkO {
  o_ms : N;                                                (* time.Now, in milliseconds, for timers *)
  o_now : Z;                                               (* time.Now, in nanoseconds *)
  o_time : N -> Z;                                         (* Config.Time *)
  o_random : option bytes;                                 (* prng.Read of a hello's 32 random bytes *)
  o_keys : nat -> keyrand;                                 (* randomness of the nth key generation *)
  o_sig : bytes;                                           (* randomness of a signature *)
  o_ticket : option bytes;                                 (* random bytes of a new session ticket *)
  o_send : N -> byte -> list ext -> option (list ext);     (* AppExtensionHandler.Send *)
  o_recv : N -> byte -> list ext -> option (list ext);     (* AppExtensionHandler.Receive *)
  o_generate : N -> option (option bytes);                 (* CookieHandler.Generate; Some None is a nil cookie *)
  o_validate : N -> bytes -> bool;                         (* CookieHandler.Validate *)
  o_newToken : N -> bytes -> option bytes;                 (* CookieProtector.NewToken *)
  o_decodeToken : N -> bytes -> option bytes;              (* CookieProtector.DecodeToken *)
  o_verifyPeer : N -> list bytes -> list (list bytes) -> bool; (* VerifyPeerCertificate returns nil *)
  o_protector : option N                                   (* NewDefaultCookieProtector *)
}.

(** [if handler != nil { err := handler.Send/Receive(hs, &list) ... }] *)
Definition ext_send (o : oracle) (c : config) (hs : byte) (l : list ext) : res (list ext) :=
  match cf_extensionHandler c with
  | None => Ok l
  | Some h => match o_send o h hs l with Some l => Ok l | None => alert AlertInternalError end
  end.
Definition ext_recv (o : oracle) (c : config) (hs : byte) (l : list ext) : res (list ext) :=
  match cf_extensionHandler c with
  | None => Ok l
  | Some h => match o_recv o h hs l with Some l => Ok l | None => alert AlertInternalError end
  end.
(** conn.go:212-218 *)
Definition cfg_time (o : oracle) (c : config) : Z := match cf_time c with Some t => o_time o t | None => o_now o end.

(** ** States *)

(** state-machine.go:57-68 *)
Record params := mkPar {
  p_usingPSK : bool; p_usingDH : bool; p_clientSendingEarlyData : bool; p_usingEarlyData : bool;
  p_rejectedEarlyData : bool; p_usingClientAuth : bool; p_suite : N; p_serverName : bytes; p_nextProto : bytes }.
Definition no_params : params := mkPar false false false false false false 0 [] [].

(** client-state-machine.go:53-62; the options are state-machine.go:50-53. *)
Record cstart := mkCst {
  st_serverName : bytes; st_nextProtos : list bytes; st_params : params;
  st_cookie : option bytes; st_first : option hmsg; st_hrr : option hmsg }.
(** client-state-machine.go:302-318. [ws_dh] is a map, latest binding first; [ws_psk] is the PSK offered, if any;
    the field [PSK] is never used. *)
Record cwaitsh := mkWsh {
  ws_serverName : bytes; ws_nextProtos : list bytes; ws_params : params; ws_dh : list (N * bytes); ws_psk : option psk;
  ws_earlySecret : bytes; ws_first : option hmsg; ws_hrr : option hmsg; ws_hello : hmsg }.
(** The fields that client-state-machine.go:549-558, 649-658, 727-739, 781-794 and 883-897 have in common. The hash
    object is in the world. *)
Record ckeys := mkCk { ck_params : params; ck_suite : suite; ck_master : bytes; ck_chs : bytes; ck_shs : bytes }.
(** server-state-machine.go:447-463. [None] for [dhSecret] and [cert] is nil. *)
Record snegotiated := mkNeg {
  n_params : params; n_dhGroup : N; n_dhPublic : bytes; n_dhSecret : option bytes; n_pskSecret : bytes;
  n_earlyTrafficSecret : bytes; n_selectedPSK : nat; n_cert : option keypair; n_certScheme : N; n_sessionId : bytes;
  n_first : option hmsg; n_hrr : option hmsg; n_hello : hmsg }.
(** The fields that server-state-machine.go:766-777, 889-900, 941-952, 1013-1028 and 1097-1111 have in common. *)
Record skeys := mkSk { sk_params : params; sk_suite : suite; sk_master : bytes; sk_chs : bytes; sk_cts : bytes; sk_sts : bytes; sk_exporter : bytes }.
(** state-machine.go:91-102 *)
Record connected := mkConn {
  sc_params : params; sc_isClient : bool; sc_suite : suite; sc_resumption : bytes; sc_cts : bytes; sc_sts : bytes;
  sc_exporter : bytes; sc_peer : list bytes; sc_chains : list (list bytes) }.

(** state-machine.go:38-41 *)
Inductive hstate :=
| CStart (s : cstart)
| CWaitSH (s : cwaitsh)
| CWaitEE (k : ckeys)
| CWaitCertCR (k : ckeys)
| CWaitCert (k : ckeys) (cr : certRequest)
| CWaitCV (k : ckeys) (cert : certificate) (cr : option certRequest)
| CWaitFinished (k : ckeys) (certs : list keypair) (cr : option certRequest) (peer : list bytes) (chains : list (list bytes))
| SStart
| SNegotiated (n : snegotiated)
| SWaitEOED (k : skeys)
| SReadPastEarlyData (next : hstate)
| SWaitFlight2 (k : skeys)
| SWaitCert (k : skeys)
| SWaitCV (k : skeys) (cert : certificate)
| SWaitFinished (k : skeys) (peer : list bytes)
| Connected (c : connected).

(** state-machine.go:12-36; [SendEarlyData] is never used. *)
Inductive action :=
| QueueHandshakeMessage (m : hmsg)
| SendQueuedHandshake
| RekeyIn (epoch : N) (k : keyset)
| RekeyOut (epoch : N) (k : keyset)
| ResetOut (seq : N)
| StorePSK (p : psk).

(** What a step can change: the configuration (shared through a pointer), the contents of the PSK cache, the
    handshake context, its early data, and what has been written to the handshake hash (there is one hash object at
    a time, shared by the successive states; state-machine.go:71-79). *)
Record world := mkW { w_cfg : config; w_psks : cache; w_ctx : hctx; w_early : bytes; w_hash : bytes }.
Definition set_cfg (w : world) (c : config) : world := mkW c (w_psks w) (w_ctx w) (w_early w) (w_hash w).
Definition set_psks (w : world) (c : cache) : world := mkW (w_cfg w) c (w_ctx w) (w_early w) (w_hash w).
Definition set_ctx (w : world) (x : hctx) : world := mkW (w_cfg w) (w_psks w) x (w_early w) (w_hash w).
Definition set_early (w : world) (b : bytes) : world := mkW (w_cfg w) (w_psks w) (w_ctx w) b (w_hash w).
Definition set_hash (w : world) (b : bytes) : world := mkW (w_cfg w) (w_psks w) (w_ctx w) (w_early w) b.
(** [handshakeHash.Write] and [handshakeHash.Sum(nil)] *)
Definition hash_write (w : world) (b : bytes) : world := set_hash w (w_hash w ++ b).
Definition hash_sum (P : prims) (s : suite) (w : world) : bytes := digest P (s_hash s) (w_hash w).

(** [Marshal] of a message that may be nil (handshake-layer.go:45-48). *)
Definition omarshal (m : option hmsg) : bytes := match m with Some m => hm_marshal m | None => [] end.
(** The pseudo-message [&HandshakeMessage{msgType: HandshakeTypeMessageHash, body: ...}] of
    client-state-machine.go:411-414 and server-state-machine.go:187-190: no length, not a datagram. *)
Definition message_hash (d : bytes) : hmsg := mkHm htMessageHash 0 d false 0 0 None.

(** handshake-layer.go:103-118 on [hOut] *)
Definition makeMessage (w : world) (b : body) : world * res hmsg :=
  match body_marshal b with
  | Ok data => let '(h, m) := messageFromBody (x_out (w_ctx w)) (body_type b) data in (set_ctx w (set_out (w_ctx w) h), Ok m)
  | Err e => (w, Err e) | Panic => (w, Panic) | Fuel => (w, Fuel)
  end.
(** The same with [if err != nil { return ..., AlertInternalError }]. *)
Definition newMessage (w : world) (b : body) : world * res hmsg :=
  let '(w, r) := makeMessage w b in (w, or_alert r AlertInternalError).

(** state-machine.go:81-88 *)
Definition layer_version (h : hlayer) (v : N) : hlayer :=
  let c := hl_conn h in set_conn h (mkRl (setVersion (l_core c) v) (l_frame c) (l_cached c) (l_in c) (l_out c)).
Definition ctx_setVersion (w : world) (v : N) : world :=
  let x := w_ctx w in set_ctx w (set_out (set_in x (layer_version (x_in x) v)) (layer_version (x_out x) v)).

(** dtls.go:32-37 *)
Definition wireVersion (h : hlayer) : N := if hl_datagram h then dtls12WireVersion else tls12Version.

(** conn.go:705-723. [fuel] bounds this loop and those inside [ReadMessage]. *)
Fixpoint hr_read_loop (fuel inner : nat) (now : N) (x : hctx) : hctx * res hmsg :=
  match fuel with
  | O => (x, Fuel)
  | S fuel =>
      match readMessage inner now x with
      | (x, Ok (Some m)) => (x, Ok m)
      | (x, Ok None) => hr_read_loop fuel inner now x
      | (x, Err e) => (x, if is_wb e then alert AlertWouldBlock else alert AlertCloseNotify)
      | (x, Panic) => (x, Panic)
      | (x, Fuel) => (x, Fuel)
      end
  end.
Definition hr_read (fuel : nat) (o : oracle) (w : world) : world * res hmsg :=
  let '(x, r) := hr_read_loop fuel fuel (o_ms o) (w_ctx w) in (set_ctx w x, r).

(** ** The connected state *)

(** common.go:160-165 *)
Definition KeyUpdateNotRequested : N := 0.
Definition KeyUpdateRequested : N := 1.

Definition set_cts (c : connected) (s : bytes) : connected :=
  mkConn (sc_params c) (sc_isClient c) (sc_suite c) (sc_resumption c) s (sc_sts c) (sc_exporter c) (sc_peer c) (sc_chains c).
Definition set_sts (c : connected) (s : bytes) : connected :=
  mkConn (sc_params c) (sc_isClient c) (sc_suite c) (sc_resumption c) (sc_cts c) s (sc_exporter c) (sc_peer c) (sc_chains c).

(** The next client or server traffic secret (state-machine.go:116-117, 120-121, 201-202, 205-206). *)
Definition nextClientSecret (P : prims) (c : connected) : bytes :=
  hkdfExpandLabel P (s_hash (sc_suite c)) (sc_cts c) labelClientApplicationTrafficSecret [] (hsize (s_hash (sc_suite c))).
Definition nextServerSecret (P : prims) (c : connected) : bytes :=
  hkdfExpandLabel P (s_hash (sc_suite c)) (sc_sts c) labelServerApplicationTrafficSecret [] (hsize (s_hash (sc_suite c))).

(** state-machine.go:113-137. The state is changed (it is a pointer receiver) even when an alert is returned. *)
Definition keyUpdate (P : prims) (w : world) (c : connected) (request : N) : (world * connected) * res (list action) :=
  let '(c, keys) :=
    if sc_isClient c then let c := set_cts c (nextClientSecret P c) in (c, makeTrafficKeys P (sc_suite c) (sc_cts c))
    else let c := set_sts c (nextServerSecret P c) in (c, makeTrafficKeys P (sc_suite c) (sc_sts c)) in
  let '(w, r) := newMessage w (BKeyUpdate request) in
  ((w, c), do kum <- r; Ok [QueueHandshakeMessage kum; SendQueuedHandshake; RekeyOut EpochUpdate keys]).

(** The PSK that a ticket stands for (state-machine.go:152-164 and 229-240). [time.Now] is called twice; both calls
    get the same answer here. [time.Duration(lifetime) * time.Second] fits an int64. *)
Definition ticketPSK (P : prims) (now : Z) (c : connected) (t : ticket) : psk :=
  mkPsk (s_id (sc_suite c)) true (tk_ticket t)
        (hkdfExpandLabel P (s_hash (sc_suite c)) (sc_resumption c) labelResumption (tk_nonce t) (hsize (s_hash (sc_suite c))))
        (p_nextProto (sc_params c)) now (now + Z.of_N (tk_lifetime t) * 1000000000)%Z (tk_ageAdd t).

(** state-machine.go:139-178. [o_ticket] are the random bytes for the requested length (conn.go:802-805). *)
Definition newTicket (P : prims) (o : oracle) (w : world) (c : connected) : world * res (list action) :=
  call w, tkt <- (w, or_alert (newSessionTicket (o_ticket o) (cf_ticketLifetime (w_cfg w))) AlertInternalError);
  call w, exts <- (w, or_alert (el_add (tk_exts tkt) etTicketEarlyDataInfo (tedi_marshal (cf_earlyDataLifetime (w_cfg w)))) AlertInternalError);
  let tkt := mkTkt (tk_lifetime tkt) (tk_ageAdd tkt) (tk_nonce tkt) (tk_ticket tkt) exts in
  call w, tktm <- newMessage w (BNewSessionTicket tkt);
  (w, Ok [StorePSK (ticketPSK P (o_now o) c tkt); QueueHandshakeMessage tktm; SendQueuedHandshake]).

(** state-machine.go:185-247 *)
Definition processMessage (P : prims) (X : pki) (o : oracle) (w : world) (c : connected) (hm : hmsg) : world * res (connected * list action) :=
  call w, b <- (w, or_alert (toBody (x_parses X) (hm_type hm) (hm_body hm)) AlertDecodeError);
  match b with
  | BKeyUpdate request =>
      let '(c, keys) :=
        if negb (sc_isClient c) then let c := set_cts c (nextClientSecret P c) in (c, makeTrafficKeys P (sc_suite c) (sc_cts c))
        else let c := set_sts c (nextServerSecret P c) in (c, makeTrafficKeys P (sc_suite c) (sc_sts c)) in
      let toSend := [RekeyIn EpochUpdate keys] in
      if request =? KeyUpdateRequested then
        let '((w, c), r) := keyUpdate P w c KeyUpdateNotRequested in
        (w, do more <- r; Ok (c, toSend ++ more))
      else (w, Ok (c, toSend))
  | BNewSessionTicket t =>
      if negb (sc_isClient c) then (w, alert AlertUnexpectedMessage)
      else (w, Ok (c, [StorePSK (ticketPSK P (o_now o) c t)]))
  | _ => (w, alert AlertUnexpectedMessage)
  end.
