(** Model of /repo/server-state-machine.go, arranged like Client.v. *)
From Verif Require Import Base Syntax Frame Record Timer Handshake Crypto Messages Pki Negotiation Machine Cookie Client.

(** ** Start *)

(** The extensions a ClientHello is searched for (server-state-machine.go:115-124). *)
Record chexts := mkCx {
  cx_versions : list N; cx_name : bytes; cx_groups : list N; cx_schemes : list N; cx_shares : list kshare;
  cx_psk : list pskid * list bytes; cx_protos : list bytes; cx_modes : list N; cx_cookie : bytes }.
Definition no_chexts : chexts := mkCx [] [] [] [] [] ([], []) [] [] [].
(** server-state-machine.go:135-147 *)
Definition ch_dsts : list (N * (chexts -> bytes -> res chexts)) :=
  [(etSupportedVersions, fun s d => do v <- safeUnmarshal versions_client_unmarshal d;
      Ok (mkCx v (cx_name s) (cx_groups s) (cx_schemes s) (cx_shares s) (cx_psk s) (cx_protos s) (cx_modes s) (cx_cookie s)));
   (etServerName, fun s d => do v <- safeUnmarshal sni_unmarshal d;
      Ok (mkCx (cx_versions s) v (cx_groups s) (cx_schemes s) (cx_shares s) (cx_psk s) (cx_protos s) (cx_modes s) (cx_cookie s)));
   (etSupportedGroups, fun s d => do v <- safeUnmarshal list16_unmarshal d;
      Ok (mkCx (cx_versions s) (cx_name s) v (cx_schemes s) (cx_shares s) (cx_psk s) (cx_protos s) (cx_modes s) (cx_cookie s)));
   (etSignatureAlgorithms, fun s d => do v <- safeUnmarshal list16_unmarshal d;
      Ok (mkCx (cx_versions s) (cx_name s) (cx_groups s) v (cx_shares s) (cx_psk s) (cx_protos s) (cx_modes s) (cx_cookie s)));
   (etEarlyData, fun s d => do _ <- safeUnmarshal early_unmarshal d; Ok s);
   (etKeyShare, fun s d => do v <- safeUnmarshal ks_client_unmarshal d;
      Ok (mkCx (cx_versions s) (cx_name s) (cx_groups s) (cx_schemes s) v (cx_psk s) (cx_protos s) (cx_modes s) (cx_cookie s)));
   (etPreSharedKey, fun s d => do v <- safeUnmarshal psk_client_unmarshal d;
      Ok (mkCx (cx_versions s) (cx_name s) (cx_groups s) (cx_schemes s) (cx_shares s) v (cx_protos s) (cx_modes s) (cx_cookie s)));
   (etALPN, fun s d => do v <- safeUnmarshal alpn_unmarshal d;
      Ok (mkCx (cx_versions s) (cx_name s) (cx_groups s) (cx_schemes s) (cx_shares s) (cx_psk s) v (cx_modes s) (cx_cookie s)));
   (etPSKKeyExchangeModes, fun s d => do v <- safeUnmarshal modes_unmarshal d;
      Ok (mkCx (cx_versions s) (cx_name s) (cx_groups s) (cx_schemes s) (cx_shares s) (cx_psk s) (cx_protos s) v (cx_cookie s)));
   (etCookie, fun s d => do v <- safeUnmarshal cookie_unmarshal d;
      Ok (mkCx (cx_versions s) (cx_name s) (cx_groups s) (cx_schemes s) (cx_shares s) (cx_psk s) (cx_protos s) (cx_modes s) v))].

(** server-state-machine.go:406-445 *)
Definition generateHRR (o : oracle) (w : world) (suite : N) (session token : bytes) : world * res hmsg :=
  call w, exts <- (w, or_alert (do l <- el_add [] etSupportedVersions (versions_server_marshal [tls13Version]);
                                el_add l etCookie (cookie_marshal token)) AlertInternalError);
  call w, exts <- (w, ext_send o (w_cfg w) htHelloRetryRequest exts);
  newMessage w (BServerHello (mkSh tls12Version hrrRandomSentinel session suite 0 exts)).

(** server-state-machine.go:175-202: the pseudo-message for the first ClientHello and the suite selected with it. A nil
    protector is dereferenced. *)
Definition check_cookie (o : oracle) (cfg : config) (token : bytes) : res (hmsg * suite) :=
  match cf_cookieProtector cfg with
  | None => Panic
  | Some pr =>
      match o_decodeToken o pr token with
      | None => alert AlertDecryptError
      | Some plain =>
          do c <- or_alert (cookie_of plain) AlertInternalError;
          let valid := match cf_cookieHandler cfg with Some h => o_validate o h (co_app c) | None => true end in
          if negb valid then alert AlertAccessDenied else
          match cipherSuiteMap (co_suite c) with
          | None => alert AlertInternalError
          | Some s => Ok (message_hash (co_hash c), s)
          end
      end
  end.

(** server-state-machine.go:212-242. The suite given to [generateHRR] is always zero. *)
Definition server_psk (P : prims) (o : oracle) (w : world) (ch : clientHello) (x : chexts) (first : option hmsg) : world * res (option (nat * psk * suite)) :=
  let '(ids, binders) := cx_psk x in
  match ids with
  | [] => (w, Ok None)
  | _ =>
      call w, base <- match first with
                      | None => (w, Ok [])
                      | Some f => call w, hrr <- generateHRR o w 0 (ch_session ch) (cx_cookie x); (w, Ok (hm_marshal f ++ hm_marshal hrr))
                      end;
      call w, trunc <- (w, or_alert (ch_truncated ch) AlertDecodeError);
      match cf_psks (w_cfg w) with
      | None => (w, Panic)
      | Some _ => (w, or_alert (pskNegotiation P (o_now o) (cache_get (w_psks w)) 0 ids binders (base ++ trunc)) AlertInternalError)
      end
  end.

(** server-state-machine.go:266-300: the cookie to send now, if any. *)
Definition new_cookie (P : prims) (o : oracle) (cfg : config) (suite : N) (hello : hmsg) : res (option bytes) :=
  do app <- match cf_cookieHandler cfg with
            | None => Ok (Some [])
            | Some h => match o_generate o h with Some app => Ok app | None => alert AlertInternalError end
            end;
  match app with
  | None => Ok None
  | Some app =>
      match cipherSuiteMap suite with
      | None => Panic
      | Some s =>
          do plain <- or_alert (co_marshal (mkCookie suite (digest P (s_hash s) (hm_marshal hello)) app)) AlertInternalError;
          match cf_cookieProtector cfg with
          | None => Panic
          | Some pr => match o_newToken o pr plain with Some t => Ok (Some t) | None => alert AlertInternalError end
          end
      end
  end.

(** server-state-machine.go:258-323: the HelloRetryRequest and whether it is to be sent. *)
Definition server_retry (P : prims) (o : oracle) (w : world) (ch : clientHello) (suite : N) (hello : hmsg) (sent : bytes) : world * res (option hmsg * bool) :=
  if negb (cf_requireCookie (w_cfg w)) then (w, Ok (None, false)) else
  match sent with
  | _ :: _ => call w, hrr <- generateHRR o w suite (ch_session ch) sent; (w, Ok (Some hrr, false))
  | [] =>
      call w, token <- (w, new_cookie P o (w_cfg w) suite hello);
      match token with
      | None => (w, Ok (None, false))
      | Some t => call w, hrr <- generateHRR o w suite (ch_session ch) t; (w, Ok (Some hrr, true))
      end
  end.

(** server-state-machine.go:331-355: the certificate and the scheme, without a PSK. *)
Definition server_cert (X : pki) (cfg : config) (found : list N) (x : chexts) (usingPSK : bool) : res (option keypair * N) :=
  if usingPSK then Ok (None, 0) else
  if negb (existsb (N.eqb etServerName) found && existsb (N.eqb etSupportedGroups) found && existsb (N.eqb etSignatureAlgorithms) found)
  then alert AlertMissingExtension else
  do '(cert, scheme) <- or_alert (certificateSelection X (Some (cx_name x)) (cx_schemes x) (cf_certificates cfg)) AlertAccessDenied;
  Ok (Some cert, scheme).

(** server-state-machine.go:95-404 *)
Definition server_start (P : prims) (X : pki) (o : oracle) (w : world) (hm : hmsg) : world * res outcome :=
  if negb (Byte.eqb (hm_type hm) htClientHello) then (w, alert AlertUnexpectedMessage) else
  let wv := wireVersion (x_in (w_ctx w)) in
  call w, ch <- (w, or_alert (safeUnmarshal (ch_unmarshal wv) (hm_body hm)) AlertDecodeError);
  if negb (ch_version ch =? wv) then (w, alert AlertDecodeError) else
  call w, exts <- (w, ext_recv o (w_cfg w) htClientHello (ch_exts ch));
  let ch := set_exts ch exts in
  call w, '(found, x) <- (w, or_alert (el_parse exts ch_dsts no_chexts) AlertDecodeError);
  if negb (existsb (N.eqb etSupportedVersions) found) then (w, alert AlertProtocolVersion) else
  match versionNegotiation (cx_versions x) [tls13Version] with
  | None => (w, alert AlertProtocolVersion)
  | Some _ =>
  call w, checked <- (w, match cx_cookie x with
                         | [] => Ok None
                         | token => do c <- check_cookie o (w_cfg w) token; Ok (Some c)
                         end);
  if negb ((List.length (ch_session ch) =? 0)%nat || (List.length (ch_session ch) =? 32)%nat) then (w, alert AlertIllegalParameter) else
  call w, '(_, dh) <- (w, dhNegotiation P (o_keys o) 0 (cx_shares x) (cf_groups (w_cfg w)));
  call w, chosen <- server_psk P o w ch x (match checked with Some (f, _) => Some f | None => None end);
  let key := match chosen with Some (_, p, _) => Some p | None => None end in
  let '(usingDH, usingPSK) := pskModeNegotiation (match dh with Some _ => true | None => false end)
                                                 (match chosen with Some _ => true | None => false end) (cx_modes x) in
  call w, suite <- (w, or_alert (cipherSuiteNegotiation key (ch_suites ch) (cf_cipherSuites (w_cfg w))) AlertHandshakeFailure);
  if match checked with Some (_, s) => negb (s_id s =? suite) | None => false end then (w, alert AlertInternalError) else
  call w, '(hrr, retry) <- server_retry P o w ch suite hm (cx_cookie x);
  if (retry : bool) then
    (w, Ok (SStart, match hrr with Some m => [QueueHandshakeMessage m; SendQueuedHandshake] | None => [] end, true))
  else
  if negb usingDH && negb usingPSK then (w, alert AlertHandshakeFailure) else
  call w, '(cert, scheme) <- (w, server_cert X (w_cfg w) found x usingPSK);
  let got := existsb (N.eqb etEarlyData) found in
  let '(usingEarly, rejected) := earlyDataNegotiation usingPSK got (cf_allowEarlyData (w_cfg w)) in
  let earlyTraffic :=
    match chosen with
    | Some (_, p, ps) =>
        if usingEarly then
          deriveSecret P ps (hkdfExtract P (s_hash ps) (Some (repeat x00 (hsize (s_hash ps)))) (psk_key p)) labelEarlyTrafficSecret
                       (digest P (s_hash ps) (hm_marshal hm))
        else []
    | None => []
    end in
  call w, proto <- (w, or_alert (alpnNegotiation (if usingPSK then key else None) (cx_protos x) (cf_nextProtos (w_cfg w))) AlertNoApplicationProtocol);
  let params := mkPar usingPSK usingDH got usingEarly rejected false suite
                      (if existsb (N.eqb etServerName) found then cx_name x else []) proto in
  let w := set_ctx w (receivedEndOfFlight (w_ctx w)) in
  let w := ctx_setVersion w tls12Version in
  done w (SNegotiated (mkNeg params (match dh with Some (g, _, _) => g | None => 0 end) (match dh with Some (_, p, _) => p | None => [] end)
                             (if usingDH then match dh with Some (_, _, z) => Some z | None => None end else None)
                             (if usingPSK then match key with Some p => psk_key p | None => [] end else [])
                             earlyTraffic (match chosen with Some (i, _, _) => i | None => 0%nat end) cert scheme (ch_session ch)
                             (match checked with Some (f, _) => Some f | None => None end) hrr hm)) []
  end.

(** ** Negotiated *)

(** server-state-machine.go:472-513: the extensions of the ServerHello, before the handler. *)
Definition server_hello_exts (n : snegotiated) : res (list ext) :=
  do l <- el_add [] etSupportedVersions (versions_server_marshal [tls13Version]);
  do l <- (if p_usingDH (n_params n) then el_add l etKeyShare (ks_server_marshal (mkKs (n_dhGroup n) (n_dhPublic n))) else Ok l);
  if p_usingPSK (n_params n) then el_add l etPreSharedKey (psk_server_marshal (N.of_nat (n_selectedPSK n) mod 2 ^ 16)) else Ok l.

(** server-state-machine.go:577-593 *)
Definition server_ee_exts (n : snegotiated) : res (list ext) :=
  do l <- match p_nextProto (n_params n) with [] => Ok [] | proto => el_add [] etALPN (alpn_marshal [proto]) end;
  if p_usingEarlyData (n_params n) then el_add l etEarlyData early_marshal else Ok l.

(** server-state-machine.go:619-681: the messages that authenticate the server, in order, and whether the client was
    asked to authenticate. A nil certificate is dereferenced. *)
Definition server_auth (P : prims) (X : pki) (o : oracle) (w : world) (n : snegotiated) (ps : suite) : world * res (bool * list action) :=
  if p_usingPSK (n_params n) then (w, Ok (p_usingClientAuth (n_params n), [])) else
  call w, '(auth, cr) <-
    (if cf_requireClientAuth (w_cfg w) then
       call w, exts <- (w, or_alert (el_add [] etSignatureAlgorithms (list16_marshal (cf_signatureSchemes (w_cfg w)))) AlertInternalError);
       call w, crm <- newMessage w (BCertificateRequest (mkCr [] exts));
       (hash_write w (hm_marshal crm), Ok (true, [QueueHandshakeMessage crm]))
     else (w, Ok (p_usingClientAuth (n_params n), [])));
  match n_cert n with
  | None => (w, Panic)
  | Some cert =>
      call w, certm <- newMessage w (chain_body (kp_chain cert));
      let w := hash_write w (hm_marshal certm) in
      call w, cv <- (w, or_alert (cv_sign P X (n_certScheme n) (kp_key cert) (hash_sum P ps w) (o_sig o)) AlertInternalError);
      call w, certvm <- newMessage w (BCertificateVerify cv);
      (hash_write w (hm_marshal certvm), Ok (auth, cr ++ [QueueHandshakeMessage certm; QueueHandshakeMessage certvm]))
  end.

(** server-state-machine.go:471-764. The marshalling of Finished does not fail. *)
Definition server_negotiated (P : prims) (X : pki) (o : oracle) (w : world) (n : snegotiated) : world * res outcome :=
  let params := n_params n in
  match o_random o with
  | None => (w, alert AlertInternalError)
  | Some random =>
  call w, exts <- (w, or_alert (server_hello_exts n) AlertInternalError);
  call w, exts <- (w, ext_send o (w_cfg w) htServerHello exts);
  call w, shm <- newMessage w (BServerHello (mkSh tls12Version random (n_sessionId n) (p_suite params) 0 exts));
  match cipherSuiteMap (p_suite params) with
  | None => (w, alert AlertHandshakeFailure)
  | Some ps =>
  let w := set_hash w (omarshal (n_first n) ++ omarshal (n_hrr n) ++ hm_marshal (n_hello n) ++ hm_marshal shm) in
  let zero := repeat x00 (hsize (s_hash ps)) in
  let earlySecret := hkdfExtract P (s_hash ps) (Some zero) (if p_usingPSK params then n_pskSecret n else zero) in
  let dhSecret := match n_dhSecret n with Some z => z | None => zero end in
  let '(chs, shs, master) := handshake_secrets P ps earlySecret dhSecret (hash_sum P ps w) in
  call w, exts <- (w, or_alert (server_ee_exts n) AlertInternalError);
  call w, exts <- (w, ext_send o (w_cfg w) htEncryptedExtensions exts);
  call w, eem <- newMessage w (BEncryptedExtensions exts);
  let w := hash_write w (hm_marshal eem) in
  call w, '(clientAuth, auth) <- server_auth P X o w n ps;
  let serverFinishedData := computeFinishedData P ps shs (hash_sum P ps w) in
  call w, finm <- newMessage w (BFinished (List.length serverFinishedData) serverFinishedData);
  let w := hash_write w (hm_marshal finm) in
  let h4 := hash_sum P ps w in
  let cts := deriveSecret P ps master labelClientApplicationTrafficSecret h4 in
  let sts := deriveSecret P ps master labelServerApplicationTrafficSecret h4 in
  let exporter := deriveSecret P ps master labelExporterSecret h4 in
  let params := if (clientAuth : bool) then set_clientAuth params else params in
  let k := mkSk params ps master chs cts sts exporter in
  let toSend := [QueueHandshakeMessage shm; RekeyOut EpochHandshakeData (makeTrafficKeys P ps shs); QueueHandshakeMessage eem] ++ auth ++
                [QueueHandshakeMessage finm; SendQueuedHandshake; RekeyOut EpochApplicationData (makeTrafficKeys P ps sts)] in
  if p_usingEarlyData params then
    done w (SWaitEOED k) (toSend ++ [RekeyIn EpochEarlyData (makeTrafficKeys P ps (n_earlyTrafficSecret n))])
  else
    let next := SWaitFlight2 k in
    done w (if p_rejectedEarlyData params then SReadPastEarlyData next else next)
         (toSend ++ [RekeyIn EpochHandshakeData (makeTrafficKeys P ps chs)])
  end
  end.

(** ** WaitEOED, ReadPastEarlyData, WaitFlight2 *)

(** Replacing [hIn.conn]. *)
Definition in_conn (w : world) : rlayer := hl_conn (x_in (w_ctx w)).
Definition set_in_conn (w : world) (c : rlayer) : world := set_ctx w (set_in (w_ctx w) (set_conn (x_in (w_ctx w)) c)).
(** record-layer.go:301-315 with [block] the opposite of [nonblocking]. *)
Fixpoint peek (fuel : nat) (w : world) : world * res byte :=
  match fuel with
  | O => (w, Fuel)
  | S fuel =>
      let '(c, r) := peekRecordType (in_conn w) in
      let w := set_in_conn w c in
      match r with
      | Err e => if negb (hl_nonblocking (x_in (w_ctx w))) && is_wb e then peek fuel w else (w, Err e)
      | r => (w, r)
      end
  end.

(** server-state-machine.go:786-816 *)
Fixpoint read_early (fuel : nat) (w : world) : world * res unit :=
  match fuel with
  | O => (w, Fuel)
  | S fuel' =>
      if negb (rl_epoch (l_core (in_conn w)) =? EpochEarlyData) then (w, Panic) else
      match peek fuel w with
      | (w, Ok t) =>
          if negb (Byte.eqb t rtApplicationData) then (w, Ok tt) else
          let '(c, r) := readRecord (in_conn w) in
          let w := set_in_conn w c in
          match r with
          | Ok pt => read_early fuel' (set_early w (w_early w ++ p_fragment pt))
          | Err _ => (w, alert AlertInternalError)
          | Panic => (w, Panic) | Fuel => (w, Fuel)
          end
      | (w, Err e) => (w, if is_wb e then alert AlertWouldBlock else alert AlertBadRecordMAC)
      | (w, Panic) => (w, Panic)
      | (w, Fuel) => (w, Fuel)
      end
  end.

(** server-state-machine.go:822-852 *)
Definition server_wait_eoed (P : prims) (w : world) (k : skeys) (hm : hmsg) : world * res outcome :=
  if negb (Byte.eqb (hm_type hm) htEndOfEarlyData) then (w, alert AlertUnexpectedMessage) else
  match hm_body hm with
  | _ :: _ => (w, alert AlertDecodeError)
  | [] => done (hash_write w (hm_marshal hm)) (SWaitFlight2 k) [RekeyIn EpochHandshakeData (makeTrafficKeys P (sk_suite k) (sk_chs k))]
  end.

(** server-state-machine.go:863-882 *)
Fixpoint server_read_past (fuel : nat) (w : world) (next : hstate) : world * res outcome :=
  match fuel with
  | O => (w, Fuel)
  | S fuel' =>
      match peek fuel w with
      | (w, Ok _) => done w next []
      | (w, Err EDecrypt) => server_read_past fuel' w next
      | (w, Err e) => (w, if is_wb e then alert AlertWouldBlock else alert AlertInternalError)
      | (w, Panic) => (w, Panic)
      | (w, Fuel) => (w, Fuel)
      end
  end.

(** server-state-machine.go:908-939 *)
Definition server_wait_flight2 (w : world) (k : skeys) : world * res outcome :=
  done w (if p_usingClientAuth (sk_params k) then SWaitCert k else SWaitFinished k []) [].

(** ** WaitCert, WaitCV, WaitFinished *)

(** server-state-machine.go:965-1010 *)
Definition server_wait_cert (X : pki) (w : world) (k : skeys) (hm : hmsg) : world * res outcome :=
  if negb (Byte.eqb (hm_type hm) htCertificate) then (w, alert AlertUnexpectedMessage) else
  call w, cert <- (w, or_alert (safeUnmarshal (cert_unmarshal (x_parses X)) (hm_body hm)) AlertDecodeError);
  let w := hash_write w (hm_marshal hm) in
  done w (match ct_list cert with [] => SWaitFinished k [] | _ => SWaitCV k cert end) [].

(** server-state-machine.go:1041-1094 *)
Definition server_wait_cv (P : prims) (X : pki) (o : oracle) (w : world) (k : skeys) (cert : certificate) (hm : hmsg) : world * res outcome :=
  if negb (Byte.eqb (hm_type hm) htCertificateVerify) then (w, alert AlertUnexpectedMessage) else
  call w, cv <- (w, or_alert (safeUnmarshal cv_unmarshal (hm_body hm)) AlertDecodeError);
  match map ce_cert (ct_list cert) with
  | [] => (w, Panic)
  | leaf :: rest =>
      call w, _ <- (w, or_alert (cv_verify P X cv leaf (hash_sum P (sk_suite k) w)) AlertHandshakeFailure);
      if negb (peer_ok o (w_cfg w) (leaf :: rest) []) then (w, alert AlertBadCertificate) else
      done (hash_write w (hm_marshal hm)) (SWaitFinished k (leaf :: rest)) []
  end.

(** server-state-machine.go:1124-1176 *)
Definition server_wait_finished (P : prims) (w : world) (k : skeys) (peer : list bytes) (hm : hmsg) : world * res outcome :=
  if negb (Byte.eqb (hm_type hm) htFinished) then (w, alert AlertUnexpectedMessage) else
  let ps := sk_suite k in
  call w, verifyData <- (w, or_alert (safeUnmarshal (fin_unmarshal (hsize (s_hash ps))) (hm_body hm)) AlertDecodeError);
  let clientFinishedData := computeFinishedData P ps (sk_chs k) (hash_sum P ps w) in
  if negb (beqb verifyData clientFinishedData) then (w, alert AlertHandshakeFailure) else
  let w := hash_write w (hm_marshal hm) in
  let resumption := deriveSecret P ps (sk_master k) labelResumptionSecret (hash_sum P ps w) in
  let '(x, r) := receivedFinalFlight (w_ctx w) in
  call w, _ <- (set_ctx w x, r);
  done w (Connected (mkConn (sk_params k) false ps resumption (sk_cts k) (sk_sts k) (sk_exporter k) peer []))
       [RekeyIn EpochApplicationData (makeTrafficKeys P ps (sk_cts k))].

(** ** The whole machine *)

(** The [Next] methods; [hr] is the message reader. stateConnected's returns an empty step (state-machine.go:181-183). *)
Definition next (P : prims) (X : pki) (o : oracle) (fuel : nat) (w : world) (s : hstate) : world * res outcome :=
  let reading w f := call w, hm <- hr_read fuel o w; f w hm in
  match s with
  | CStart st => client_start P o w st
  | CWaitSH st => reading w (fun w => client_wait_sh P o w st)
  | CWaitEE k => reading w (fun w => client_wait_ee P o w k)
  | CWaitCertCR k => reading w (fun w => client_wait_cert_cr X w k)
  | CWaitCert k cr => reading w (fun w => client_wait_cert X w k cr)
  | CWaitCV k cert cr => reading w (fun w => client_wait_cv P X o w k cert cr)
  | CWaitFinished k certs cr peer chains => reading w (fun w => client_wait_finished P X o w k certs cr peer chains)
  | SStart => reading w (fun w => server_start P X o w)
  | SNegotiated n => server_negotiated P X o w n
  | SWaitEOED k => call w, _ <- read_early fuel w; reading w (fun w => server_wait_eoed P w k)
  | SReadPastEarlyData nx => server_read_past fuel w nx
  | SWaitFlight2 k => server_wait_flight2 w k
  | SWaitCert k => reading w (fun w => server_wait_cert X w k)
  | SWaitCV k cert => reading w (fun w => server_wait_cv P X o w k cert)
  | SWaitFinished k peer => reading w (fun w => server_wait_finished P w k peer)
  | Connected _ => done w s []
  end.
