(** Model of /repo/client-state-machine.go. Each [Next] that reads a message is split into the reading, common to
    all, and a function of the message read. Logging is left out. *)
From Verif Require Import Base Syntax Frame Record Timer Handshake Crypto Messages Pki Negotiation Machine.

(** What a call of [Next] returns: the next state, the actions, and whether the alert is AlertStatelessRetry rather
    than AlertNoAlert. *)
Definition outcome := (hstate * list action * bool)%type.
Definition done (w : world) (s : hstate) (a : list action) : world * res outcome := (w, Ok (s, a, false)).

(** ** Start *)

(** client-state-machine.go:72-87: the shares in order, and the map of private values. [n] counts the keys made. *)
Fixpoint client_shares (P : prims) (rnd : nat -> keyrand) (n : nat) (groups : list N) : res (list kshare * list (N * bytes)) :=
  match groups with
  | [] => Ok ([], [])
  | g :: groups =>
      do '(pub, priv) <- newKeyShare P (rnd n) g;
      do '(shares, dh) <- client_shares P rnd (S n) groups;
      Ok (mkKs g pub :: shares, dh ++ [(g, priv)])
  end.

(** client-state-machine.go:92-146: the extensions before the application's handler. *)
Definition client_extensions (cfg : config) (st : cstart) (shares : list kshare) : res (list ext) :=
  do l <- el_add [] etSupportedVersions (versions_client_marshal [tls13Version]);
  do l <- el_add l etServerName (sni_marshal (st_serverName st));
  do l <- el_add l etKeyShare (ks_client_marshal shares);
  do l <- el_add l etSupportedGroups (list16_marshal (cf_groups cfg));
  do l <- el_add l etSignatureAlgorithms (list16_marshal (cf_signatureSchemes cfg));
  do l <- match st_nextProtos st with [] => Ok l | _ => el_add l etALPN (alpn_marshal (st_nextProtos st)) end;
  do l <- match st_cookie st with None => Ok l | Some c => el_add l etCookie (cookie_marshal c) end;
  match cf_pskModes cfg with [] => Ok l | _ => el_add l etPSKKeyExchangeModes (modes_marshal (cf_pskModes cfg)) end.

(** client-state-machine.go:176-182: the suites whose hash is that of the PSK. *)
Definition hash_eqb (a b : hash) : bool :=
  match a, b with SHA1, SHA1 | SHA256, SHA256 | SHA384, SHA384 | SHA512, SHA512 => true | _, _ => false end.
Definition compatible_suites (h : hash) (l : list N) : list N :=
  filter (fun s => match cipherSuiteMap s with Some p => hash_eqb (s_hash p) h | None => false end) l.

(** [ch.Extensions.Add(psk)] with its error ignored (client-state-machine.go:218, 249). *)
Definition add_ignoring (l : list ext) (t : N) (r : res bytes) : res (list ext) :=
  match el_add l t r with Ok l => Ok l | Err _ => Ok l | Panic => Panic | Fuel => Fuel end.
Definition set_exts (c : clientHello) (l : list ext) : clientHello := mkCh (ch_version c) (ch_random c) (ch_session c) (ch_suites c) l.

(** client-state-machine.go:176-249: the ClientHello with the PSK and its binder, the early secret and whether early
    data is signalled. *)
Definition client_psk (P : prims) (o : oracle) (cfg : config) (st : cstart) (ch : clientHello) (key : psk) (ps : suite) : res (clientHello * bytes * bool) :=
  let h := s_hash ps in
  let ch := mkCh (ch_version ch) (ch_random ch) (ch_session ch) (compatible_suites h (ch_suites ch)) (ch_exts ch) in
  let early := cf_allowEarlyData cfg && match st_hrr st with None => true | Some _ => false end in
  do ch <- (if early then do l <- el_add (ch_exts ch) etEarlyData early_marshal; Ok (set_exts ch l) else Ok ch);
  match cf_pskModes cfg with
  | [] => alert AlertInternalError
  | _ =>
      let ids := [mkPid (psk_identity key) ((sinceMs (o_now o) (psk_receivedAt key) + psk_ageAdd key) mod 2 ^ 32)] in
      do l <- add_ignoring (ch_exts ch) etPreSharedKey (psk_client_marshal ids [repeat x00 (hsize h)]);
      let ch := set_exts ch l in
      let earlySecret := hkdfExtract P h (Some (repeat x00 (hsize h))) (psk_key key) in
      let label := if psk_isResumption key then labelResumptionBinder else labelExternalBinder in
      let binderKey := deriveSecret P ps earlySecret label (digest P h []) in
      do trunc <- ch_truncated ch;
      let binder := computeFinishedData P ps binderKey (digest P h trunc) in
      do l <- add_ignoring (ch_exts ch) etPreSharedKey (psk_client_marshal ids [binder]);
      Ok (set_exts ch l, earlySecret, early)
  end.

Definition set_sending (p : params) (name : bytes) (early : bool) : params :=
  mkPar (p_usingPSK p) (p_usingDH p) early (p_usingEarlyData p) (p_rejectedEarlyData p) (p_usingClientAuth p) (p_suite p) name (p_nextProto p).

(** client-state-machine.go:70-300. With a PSK the error of HandshakeMessageFromBody is ignored (253); the nil
    message would be dereferenced by [takeAction] (conn.go:583). *)
Definition client_start (P : prims) (o : oracle) (w : world) (st : cstart) : world * res outcome :=
  let cfg := w_cfg w in
  call w, '(shares, dh) <- (w, or_alert (client_shares P (o_keys o) 0 (cf_groups cfg)) AlertInternalError);
  match o_random o with
  | None => (w, alert AlertInternalError)
  | Some random =>
      call w, exts <- (w, or_alert (client_extensions cfg st shares) AlertInternalError);
      call w, exts <- (w, ext_send o cfg htClientHello exts);
      let ch := mkCh (wireVersion (x_in (w_ctx w))) random [] (cf_cipherSuites cfg) exts in
      let sending := p_clientSendingEarlyData (st_params st) in
      match cf_psks cfg with
      | None => (w, Panic)
      | Some _ =>
          match cache_get (w_psks w) (st_serverName st) with
          | Some key =>
              match cipherSuiteMap (psk_suite key) with
              | None => (w, alert AlertInternalError)
              | Some ps =>
                  call w, '(ch, earlySecret, early) <- (w, or_alert (client_psk P o cfg st ch key ps) AlertInternalError);
                  let sending := early || sending in
                  let '(w, r) := makeMessage w (BClientHello ch) in
                  call w, hello <- (w, match r with Err _ => Panic | r => r end);
                  let earlyTraffic := deriveSecret P ps earlySecret labelEarlyTrafficSecret (digest P (s_hash ps) (hm_marshal hello)) in
                  let w := ctx_setVersion w tls12Version in
                  done w (CWaitSH (mkWsh (st_serverName st) (st_nextProtos st) (set_sending (st_params st) (st_serverName st) sending)
                                         dh (Some key) earlySecret (st_first st) (st_hrr st) hello))
                       ([QueueHandshakeMessage hello; SendQueuedHandshake] ++
                        (if sending then [RekeyOut EpochEarlyData (makeTrafficKeys P ps earlyTraffic)] else []))
              end
          | None =>
              call w, hello <- newMessage w (BClientHello ch);
              let w := ctx_setVersion w tls12Version in
              done w (CWaitSH (mkWsh (st_serverName st) (st_nextProtos st) (set_sending (st_params st) (st_serverName st) sending)
                                     dh None [] (st_first st) (st_hrr st) hello))
                   ([QueueHandshakeMessage hello; SendQueuedHandshake] ++
                    (if sending then [RekeyOut EpochEarlyData (mkKeys no_suite [] [])] else []))
          end
      end
  end.

(** ** WaitSH *)

(** client-state-machine.go:380-430: what is done with a HelloRetryRequest [hrr], carried by message [hm]. A suite that
    is not in the map has no hash, and [Hash.New] panics. *)
Definition client_hrr (P : prims) (o : oracle) (w : world) (st : cwaitsh) (hm : hmsg) (hrr : serverHello) : world * res outcome :=
  let w := set_cfg w (set_suites (w_cfg w) [sh_suite hrr]) in
  call w, exts <- (w, ext_recv o (w_cfg w) htHelloRetryRequest (sh_exts hrr));
  call w, found <- (w, match el_find exts etCookie cookie_unmarshal with
                       | None => Ok None
                       | Some r => do c <- or_alert r AlertDecodeError; Ok (Some c)
                       end);
  match found with
  | None => (w, alert AlertIllegalParameter)
  | Some cookie =>
      if negb (List.length exts =? 2)%nat then (w, alert AlertIllegalParameter) else
      match cipherSuiteMap (sh_suite hrr) with
      | None => (w, Panic)
      | Some ps =>
          let first := message_hash (digest P (s_hash ps) (hm_marshal (ws_hello st))) in
          let w := set_ctx w (receivedEndOfFlight (w_ctx w)) in
          let w := ctx_setVersion w tls12Version in
          done w (CStart (mkCst (ws_serverName st) (ws_nextProtos st) no_params (Some cookie) (Some first) (Some hm))) [ResetOut 1]
      end
  end.

(** [OfferedDH[group]] *)
Fixpoint dh_lookup (g : N) (l : list (N * bytes)) : option bytes :=
  match l with [] => None | (k, v) :: l => if k =? g then Some v else dh_lookup g l end.

(** client-state-machine.go:444-455: the extensions parsed out of a ServerHello: the selected identity and the key
    share. *)
Definition sh_dsts : list (N * (option N * option kshare -> bytes -> res (option N * option kshare))) :=
  [(etPreSharedKey, fun s d => do i <- safeUnmarshal psk_server_unmarshal d; Ok (Some i, snd s));
   (etKeyShare, fun s d => do k <- safeUnmarshal ks_server_unmarshal d; Ok (fst s, Some k))].

Definition set_sh_params (p : params) (psk dh : bool) (suite : N) : params :=
  mkPar psk dh (p_clientSendingEarlyData p) (p_usingEarlyData p) (p_rejectedEarlyData p) (p_usingClientAuth p) suite (p_serverName p) (p_nextProto p).

(** The schedule of client-state-machine.go:509-516 and server-state-machine.go:558-565 from the early and DH secrets
    and the transcript's hash: client and server handshake traffic secrets, and master secret. *)
Definition handshake_secrets (P : prims) (ps : suite) (earlySecret dhSecret h2 : bytes) : bytes * bytes * bytes :=
  let h := s_hash ps in
  let h0 := digest P h [] in
  let preHandshakeSecret := deriveSecret P ps earlySecret labelDerived h0 in
  let handshakeSecret := hkdfExtract P h (Some preHandshakeSecret) dhSecret in
  let chs := deriveSecret P ps handshakeSecret labelClientHandshakeTrafficSecret h2 in
  let shs := deriveSecret P ps handshakeSecret labelServerHandshakeTrafficSecret h2 in
  let preMasterSecret := deriveSecret P ps handshakeSecret labelDerived h0 in
  (chs, shs, hkdfExtract P h (Some preMasterSecret) (repeat x00 (hsize h))).

(** client-state-machine.go:434-546: what is done with a ServerHello [sh], carried by message [hm]. The error of
    [keyAgreement] is ignored and leaves no secret. *)
Definition client_server_hello (P : prims) (o : oracle) (w : world) (st : cwaitsh) (hm : hmsg) (sh : serverHello) : world * res outcome :=
  call w, exts <- (w, ext_recv o (w_cfg w) htServerHello (sh_exts sh));
  call w, '(found, (selected, share)) <- (w, or_alert (el_parse exts sh_dsts (None, None)) AlertDecodeError);
  let usingPSK := match selected with Some i => (i =? 0) || p_usingPSK (ws_params st) | None => p_usingPSK (ws_params st) end in
  call w, '(usingDH, dhSecret) <- (w, match share with
                       | None => Ok (p_usingDH (ws_params st), None)
                       | Some ks =>
                           match dh_lookup (ks_group ks) (ws_dh st) with
                           | None => alert AlertIllegalParameter
                           | Some priv =>
                               match keyAgreement P (ks_group ks) (ks_data ks) priv with
                               | Ok z => Ok (true, Some z)
                               | Err _ => Ok (true, None)
                               | Panic => Panic | Fuel => Fuel
                               end
                           end
                       end);
  match cipherSuiteMap (sh_suite sh) with
  | None => (w, alert AlertHandshakeFailure)
  | Some ps =>
      let params := set_sh_params (ws_params st) usingPSK usingDH (sh_suite sh) in
      let w := set_hash w (omarshal (ws_first st) ++ omarshal (ws_hrr st) ++ hm_marshal (ws_hello st) ++ hm_marshal hm) in
      let zero := repeat x00 (hsize (s_hash ps)) in
      let earlySecret := if usingPSK then ws_earlySecret st else hkdfExtract P (s_hash ps) (Some zero) zero in
      let dhSecret := match dhSecret with Some z => z | None => zero end in
      let '(chs, shs, master) := handshake_secrets P ps earlySecret dhSecret (hash_sum P ps w) in
      done w (CWaitEE (mkCk params ps master chs shs))
           (RekeyIn EpochHandshakeData (makeTrafficKeys P ps shs) ::
            (if p_clientSendingEarlyData params then [] else [RekeyOut EpochHandshakeData (makeTrafficKeys P ps chs)]))
  end.

(** client-state-machine.go:331-546 *)
Definition client_wait_sh (P : prims) (o : oracle) (w : world) (st : cwaitsh) (hm : hmsg) : world * res outcome :=
  if negb (Byte.eqb (hm_type hm) htServerHello) then (w, alert AlertUnexpectedMessage) else
  call w, '(sh, _) <- (w, or_alert (sh_unmarshal (hm_body hm)) AlertUnexpectedMessage);
  if negb (sh_version sh =? tls12Version) then (w, alert AlertIllegalParameter) else
  match el_find (sh_exts sh) etSupportedVersions versions_server_unmarshal with
  | None => (w, alert AlertMissingExtension)
  | Some r =>
      call w, versions <- (w, or_alert r AlertDecodeError);
      match versions with
      | [] => (w, Panic)
      | v :: _ =>
          if negb (v =? tls13Version) then (w, alert AlertProtocolVersion) else
          if negb (existsb (N.eqb (sh_suite sh)) (cf_cipherSuites (w_cfg w))) then (w, alert AlertHandshakeFailure) else
          if beqb (sh_random sh) hrrRandomSentinel then client_hrr P o w st hm sh else client_server_hello P o w st hm sh
      end
  end.

(** ** WaitEE *)

(** client-state-machine.go:591-602: the protocols and whether early data was found. *)
Definition ee_dsts : list (N * (list bytes -> bytes -> res (list bytes))) :=
  [(etALPN, fun _ d => safeUnmarshal alpn_unmarshal d); (etEarlyData, fun s d => do _ <- safeUnmarshal early_unmarshal d; Ok s)].
Definition set_ee_params (p : params) (early : bool) (proto : bytes) : params :=
  mkPar (p_usingPSK p) (p_usingDH p) (p_clientSendingEarlyData p) early (p_rejectedEarlyData p) (p_usingClientAuth p) (p_suite p) (p_serverName p) proto.
Definition set_ck_params (k : ckeys) (p : params) : ckeys := mkCk p (ck_suite k) (ck_master k) (ck_chs k) (ck_shs k).

(** client-state-machine.go:571-646 *)
Definition client_wait_ee (P : prims) (o : oracle) (w : world) (k : ckeys) (hm : hmsg) : world * res outcome :=
  if negb (Byte.eqb (hm_type hm) htEncryptedExtensions) then (w, alert AlertUnexpectedMessage) else
  call w, exts <- (w, or_alert (safeUnmarshal ee_unmarshal (hm_body hm)) AlertDecodeError);
  call w, exts <- (w, ext_recv o (w_cfg w) htEncryptedExtensions exts);
  call w, '(found, protos) <- (w, or_alert (el_parse exts ee_dsts []) AlertDecodeError);
  let early := existsb (N.eqb etEarlyData) found in
  let proto := match protos with p :: _ => p | [] => p_nextProto (ck_params k) end in
  let k := set_ck_params k (set_ee_params (ck_params k) early proto) in
  let w := hash_write w (hm_marshal hm) in
  let toSend := if p_clientSendingEarlyData (ck_params k) && negb early
                then [RekeyOut EpochHandshakeData (makeTrafficKeys P (ck_suite k) (ck_chs k))] else [] in
  if p_usingPSK (ck_params k) then done w (CWaitFinished k (cf_certificates (w_cfg w)) None [] []) toSend
  else done w (CWaitCertCR k) toSend.

(** ** WaitCertCR, WaitCert, WaitCV *)

Definition set_clientAuth (p : params) : params :=
  mkPar (p_usingPSK p) (p_usingDH p) (p_clientSendingEarlyData p) (p_usingEarlyData p) (p_rejectedEarlyData p) true (p_suite p) (p_serverName p) (p_nextProto p).

(** client-state-machine.go:671-724. The message is hashed before its type is looked at. *)
Definition client_wait_cert_cr (X : pki) (w : world) (k : ckeys) (hm : hmsg) : world * res outcome :=
  call w, b <- (w, or_alert (toBody (x_parses X) (hm_type hm) (hm_body hm)) AlertDecodeError);
  let w := hash_write w (hm_marshal hm) in
  match b with
  | BCertificate cert => done w (CWaitCV k cert None) []
  | BCertificateRequest cr =>
      match cr_context cr with
      | _ :: _ => (w, alert AlertIllegalParameter)
      | [] => done w (CWaitCert (set_ck_params k (set_clientAuth (ck_params k))) cr) []
      end
  | _ => (w, alert AlertUnexpectedMessage)
  end.

(** client-state-machine.go:752-778 *)
Definition client_wait_cert (X : pki) (w : world) (k : ckeys) (cr : certRequest) (hm : hmsg) : world * res outcome :=
  if negb (Byte.eqb (hm_type hm) htCertificate) then (w, alert AlertUnexpectedMessage) else
  call w, cert <- (w, or_alert (safeUnmarshal (cert_unmarshal (x_parses X)) (hm_body hm)) AlertDecodeError);
  done (hash_write w (hm_marshal hm)) (CWaitCV k cert (Some cr)) [].

(** [VerifyPeerCertificate], if set *)
Definition peer_ok (o : oracle) (c : config) (certs : list bytes) (chains : list (list bytes)) : bool :=
  match cf_verifyPeerCertificate c with Some h => o_verifyPeer o h certs chains | None => true end.

(** client-state-machine.go:807-880. An empty certificate list is an index out of range. *)
Definition client_wait_cv (P : prims) (X : pki) (o : oracle) (w : world) (k : ckeys) (cert : certificate) (cr : option certRequest) (hm : hmsg)
    : world * res outcome :=
  if negb (Byte.eqb (hm_type hm) htCertificateVerify) then (w, alert AlertUnexpectedMessage) else
  call w, cv <- (w, or_alert (safeUnmarshal cv_unmarshal (hm_body hm)) AlertDecodeError);
  match map ce_cert (ct_list cert) with
  | [] => (w, Panic)
  | leaf :: rest =>
      call w, _ <- (w, or_alert (cv_verify P X cv leaf (hash_sum P (ck_suite k) w)) AlertHandshakeFailure);
      let cfg := w_cfg w in
      call w, chains <- (w, if cf_insecureSkipVerify cfg then Ok []
                            else match x_chain X (cf_rootCAs cfg) (cf_serverName cfg) (cfg_time o cfg) leaf rest with
                                 | Some chains => Ok chains
                                 | None => alert AlertBadCertificate
                                 end);
      if negb (peer_ok o cfg (leaf :: rest) chains) then (w, alert AlertBadCertificate) else
      done (hash_write w (hm_marshal hm)) (CWaitFinished k (cf_certificates cfg) cr (leaf :: rest) chains) []
  end.

(** ** WaitFinished *)

(** The certificate message for a chain (client-state-machine.go:1003-1008, server-state-machine.go:647-652). *)
Definition chain_body (chain : list bytes) : body := BCertificate (mkCert [] (map (fun c => mkCe c []) chain)).

(** client-state-machine.go:973-1038: the messages that authenticate the client, in order. *)
Definition client_auth (P : prims) (X : pki) (o : oracle) (w : world) (k : ckeys) (certs : list keypair) (cr : option certRequest) : world * res (list action) :=
  if negb (p_usingClientAuth (ck_params k)) then (w, Ok []) else
  match cr with
  | None => (w, Panic)
  | Some cr =>
      match el_find (cr_exts cr) etSignatureAlgorithms list16_unmarshal with
      | None => (w, alert AlertIllegalParameter)
      | Some r =>
          call w, schemes <- (w, or_alert r AlertDecodeError);
          match certificateSelection X None schemes certs with
          | Err _ =>
              call w, certm <- newMessage w (BCertificate (mkCert [] []));
              (hash_write w (hm_marshal certm), Ok [QueueHandshakeMessage certm])
          | Ok (cert, scheme) =>
              call w, certm <- newMessage w (chain_body (kp_chain cert));
              let w := hash_write w (hm_marshal certm) in
              call w, cv <- (w, or_alert (cv_sign P X scheme (kp_key cert) (hash_sum P (ck_suite k) w) (o_sig o)) AlertInternalError);
              call w, certvm <- newMessage w (BCertificateVerify cv);
              (hash_write w (hm_marshal certvm), Ok [QueueHandshakeMessage certm; QueueHandshakeMessage certvm])
          | Panic => (w, Panic) | Fuel => (w, Fuel)
          end
      end
  end.

(** client-state-machine.go:956-971: EndOfEarlyData, if early data is used. *)
Definition client_eoed (P : prims) (w : world) (k : ckeys) : world * res (list action) :=
  if p_usingEarlyData (ck_params k) then
    call w, eoedm <- newMessage w BEndOfEarlyData;
    (hash_write w (hm_marshal eoedm),
     Ok [QueueHandshakeMessage eoedm; RekeyOut EpochHandshakeData (makeTrafficKeys P (ck_suite k) (ck_chs k))])
  else (w, Ok []).

(** client-state-machine.go:910-1086. The marshalling of EndOfEarlyData does not fail. *)
Definition client_wait_finished (P : prims) (X : pki) (o : oracle) (w : world) (k : ckeys) (certs : list keypair) (cr : option certRequest)
    (peer : list bytes) (chains : list (list bytes)) (hm : hmsg) : world * res outcome :=
  if negb (Byte.eqb (hm_type hm) htFinished) then (w, alert AlertUnexpectedMessage) else
  let ps := ck_suite k in
  let serverFinishedData := computeFinishedData P ps (ck_shs k) (hash_sum P ps w) in
  call w, verifyData <- (w, or_alert (safeUnmarshal (fin_unmarshal (List.length serverFinishedData)) (hm_body hm)) AlertDecodeError);
  if negb (beqb verifyData serverFinishedData) then (w, alert AlertHandshakeFailure) else
  let w := hash_write w (hm_marshal hm) in
  let h4 := hash_sum P ps w in
  let cts := deriveSecret P ps (ck_master k) labelClientApplicationTrafficSecret h4 in
  let sts := deriveSecret P ps (ck_master k) labelServerApplicationTrafficSecret h4 in
  let exporter := deriveSecret P ps (ck_master k) labelExporterSecret h4 in
  call w, eoed <- client_eoed P w k;
  call w, auth <- client_auth P X o w k certs cr;
  let clientFinishedData := computeFinishedData P ps (ck_chs k) (hash_sum P ps w) in
  call w, finm <- newMessage w (BFinished (List.length clientFinishedData) clientFinishedData);
  let w := hash_write w (hm_marshal finm) in
  let resumption := deriveSecret P ps (ck_master k) labelResumptionSecret (hash_sum P ps w) in
  let w := set_ctx w (receivedEndOfFlight (w_ctx w)) in
  done w (Connected (mkConn (ck_params k) true ps resumption cts sts exporter peer chains))
       (eoed ++ auth ++ [QueueHandshakeMessage finm; SendQueuedHandshake;
                         RekeyIn EpochApplicationData (makeTrafficKeys P ps sts); RekeyOut EpochApplicationData (makeTrafficKeys P ps cts)]).
