(** Model of /repo/conn.go. Locks, addresses, deadlines and logging are left out. *)
From Verif Require Import Base Syntax Frame Record Timer Handshake Crypto Messages Pki Negotiation Machine Cookie Client Server.

(** The parts of the environment that do not change from call to call: the primitives, the certificate functions,
    AES-GCM for a key (crypto.go:81-89) and the spare capacity [append] gives a new array. *)
Record env := mkEnv { v_prims : prims; v_pki : pki; v_gcm : bytes -> aead; v_grow : nat -> nat }.

(** [io.EOF] *)
Definition EOF : err := EMsg "EOF".

(** ** Configuration *)

(** conn.go:141-173 *)
Definition cfg_clone (c : config) : config :=
  mkCfg (cf_serverName c) (cf_sendSessionTickets c) (cf_ticketLifetime c) (cf_ticketLen c) (cf_earlyDataLifetime c)
    (cf_allowEarlyData c) (cf_requireCookie c) (cf_cookieHandler c) (cf_cookieProtector c) (cf_extensionHandler c)
    (cf_requireClientAuth c) (cf_time c) (cf_rootCAs c) (cf_insecureSkipVerify c) (cf_certificates c)
    (cf_verifyPeerCertificate c) (cf_cipherSuites c) (cf_groups c) (cf_signatureSchemes c) (cf_nextProtos c)
    (cf_psks c) (cf_pskModes c) (cf_nonBlocking c) (cf_useDTLS c) None.

(** conn.go:221-248 *)
Definition defaultSupportedCipherSuites : list N := [TLS_AES_128_GCM_SHA256; TLS_AES_256_GCM_SHA384].
Definition defaultSupportedGroups : list N := [P256; P384; FFDHE2048; X25519].
Definition defaultSignatureSchemes : list N :=
  [RSA_PSS_SHA256; RSA_PSS_SHA384; RSA_PSS_SHA512; ECDSA_P256_SHA256; ECDSA_P384_SHA384; ECDSA_P521_SHA512].
Definition defaultTicketLen : Z := 16.
Definition defaultPSKModes : list N := [PSKModeKE; PSKModeDHEKE].

(** [if len(l) == 0 { l = d }] *)
Definition or_default {A} (l d : list A) : list A := match l with [] => d | _ => l end.
(** conn.go:175-199. The cache made when there is none is called 0. *)
Definition cfg_init (c : config) : config :=
  mkCfg (cf_serverName c) (cf_sendSessionTickets c) (cf_ticketLifetime c)
    (if (cf_ticketLen c =? 0)%Z then defaultTicketLen else cf_ticketLen c) (cf_earlyDataLifetime c)
    (cf_allowEarlyData c) (cf_requireCookie c) (cf_cookieHandler c) (cf_cookieProtector c) (cf_extensionHandler c)
    (cf_requireClientAuth c) (cf_time c) (cf_rootCAs c) (cf_insecureSkipVerify c) (cf_certificates c)
    (cf_verifyPeerCertificate c) (or_default (cf_cipherSuites c) defaultSupportedCipherSuites)
    (or_default (cf_groups c) defaultSupportedGroups) (or_default (cf_signatureSchemes c) defaultSignatureSchemes)
    (cf_nextProtos c) (match cf_psks c with None => Some 0 | p => p end) (or_default (cf_pskModes c) defaultPSKModes)
    (cf_nonBlocking c) (cf_useDTLS c) (cf_recordLayer c).
(** The same in a world: a new cache is empty. *)
Definition world_init (w : world) : world :=
  let w' := match cf_psks (w_cfg w) with None => set_psks w [] | Some _ => w end in
  set_cfg w' (cfg_init (w_cfg w)).

(** conn.go:201-206 *)
Definition validForServer (c : config) (psks : cache) : bool :=
  match cf_psks c with Some _ => (0 <? List.length psks)%nat | None => false end ||
  match cf_certificates c with k :: _ => (0 <? List.length (kp_chain k))%nat | [] => false end.
(** conn.go:208-210 *)
Definition validForClient (c : config) : bool := (0 <? List.length (cf_serverName c))%nat.

(** ** Connections *)

(** conn.go:263-277. [in] and [out] are the connections of the handshake layers, [config] and [hsCtx] are in the world;
    [handshakeAlert] is never assigned and its zero value is ignored (conn.go:736). [c_closed] tells whether the
    underlying connection was closed. *)
Record conn := mkC {
  c_world : world; c_isClient : bool; c_state : connected; c_hState : option hstate; c_complete : bool;
  c_readBuffer : bytes; c_closed : bool }.
Definition set_world (c : conn) (w : world) : conn :=
  mkC w (c_isClient c) (c_state c) (c_hState c) (c_complete c) (c_readBuffer c) (c_closed c).
Definition set_state (c : conn) (s : connected) : conn :=
  mkC (c_world c) (c_isClient c) s (c_hState c) (c_complete c) (c_readBuffer c) (c_closed c).
Definition set_hState (c : conn) (s : hstate) : conn :=
  mkC (c_world c) (c_isClient c) (c_state c) (Some s) (c_complete c) (c_readBuffer c) (c_closed c).
Definition set_complete (c : conn) (s : connected) : conn :=
  mkC (c_world c) (c_isClient c) s (c_hState c) true (c_readBuffer c) (c_closed c).
Definition set_readBuffer (c : conn) (b : bytes) : conn :=
  mkC (c_world c) (c_isClient c) (c_state c) (c_hState c) (c_complete c) b (c_closed c).
Definition set_closed (c : conn) : conn :=
  mkC (c_world c) (c_isClient c) (c_state c) (c_hState c) (c_complete c) (c_readBuffer c) true.

Definition c_cfg (c : conn) : config := w_cfg (c_world c).
Definition c_ctx (c : conn) : hctx := w_ctx (c_world c).
Definition c_in (c : conn) : rlayer := hl_conn (x_in (c_ctx c)).
Definition c_out (c : conn) : rlayer := hl_conn (x_out (c_ctx c)).
Definition upd_ctx (c : conn) (x : hctx) : conn := set_world c (set_ctx (c_world c) x).
Definition upd_in (c : conn) (l : rlayer) : conn := upd_ctx c (set_in (c_ctx c) (set_conn (x_in (c_ctx c)) l)).
Definition upd_out (c : conn) (l : rlayer) : conn := upd_ctx c (set_out (c_ctx c) (set_conn (x_out (c_ctx c)) l)).
Definition upd_core (l : rlayer) (r : rcore) : rlayer := mkRl r (l_frame l) (l_cached l) (l_in l) (l_out l).

(** The zero value of [stateConnected]. *)
Definition zero_connected : connected := mkConn no_params false no_suite [] [] [] [] [] [].

(** conn.go:279-304, with the record layer of record-layer.go; [input] is what the underlying connection will give.
    In TLS mode the timers are not used. *)
Definition newConn (cfg : config) (psks : cache) (isClient : bool) (input : list rin) : conn :=
  let dg := cf_useDTLS cfg in
  let hin := newHandshakeLayer dg (newRecordLayer dg DirRead input) in
  let hin := mkHl (cf_nonBlocking cfg) (hl_conn hin) (hl_frame hin) (hl_datagram hin) (hl_msgSeq hin) (hl_queued hin) (hl_recvd hin) (hl_max hin) in
  let hout := newHandshakeLayer dg (newRecordLayer dg DirWrite []) in
  mkC (mkW cfg psks (mkHx hin hout [] dg newTimerSet (if dg then initialTimeout else 0)) [] [])
      isClient zero_connected None false [] false.

(** alert.go:11-15 *)
Definition AlertLevelWarning : N := 1.
Definition AlertLevelError : N := 2.

(** conn.go:512-536. The error of [WriteRecord] is dropped. *)
Definition sendAlert (c : conn) (a : N) : conn * res unit :=
  let level := if (a =? AlertNoRenegotiation) || (a =? AlertCloseNotify) then AlertLevelWarning else AlertLevelError in
  let '(l, r) := writeRecord (c_out c) (mkPt rtAlert 0 0 [b8 a; b8 level]) in
  let c := upd_out c l in
  match r with
  | Panic => (c, Panic)
  | Fuel => (c, Fuel)
  | _ => (if level =? AlertLevelWarning then c else set_closed c, Ok tt)
  end.
(** conn.go:538-543: only the underlying connection is closed. *)
Definition close (c : conn) : conn := set_closed c.
(** [c.sendAlert(alert); return alert] and [c.sendAlert(alert); return io.EOF] *)
Definition fail_alert {A} (c : conn) (a : N) : conn * res A := call c, _ <- sendAlert c a; (c, alert a).
Definition fail_eof {A} (c : conn) (a : N) : conn * res A := call c, _ <- sendAlert c a; (c, Err EOF).

(** record-layer.go:129-136, 179-189: the factory of a suite that is not known is nil; AES accepts keys of 16, 24 and
    32 bytes. *)
Definition layer_rekey (E : env) (l : rlayer) (epoch : N) (k : keyset) : rlayer * res unit :=
  match cipherSuiteMap (s_id (k_suite k)) with
  | None => (l, Panic)
  | Some _ =>
      let n := List.length (k_key k) in
      if ((n =? 16) || (n =? 24) || (n =? 32))%nat then (upd_core l (rekey (l_core l) epoch (v_gcm E (k_key k)) (k_iv k)), Ok tt)
      else (l, Err (EMsg "crypto/aes: invalid key size"))
  end.

(** conn.go:575-643 *)
Definition takeAction (E : env) (now : N) (c : conn) (a : action) : conn * res unit :=
  match a with
  | QueueHandshakeMessage m =>
      let '(x, r) := queueMessage (c_ctx c) m in (upd_ctx c x, or_alert r AlertInternalError)
  | SendQueuedHandshake =>
      let '(x, r) := sendQueued (c_ctx c) in
      let c := upd_ctx c x in
      call c, _ <- (c, or_alert r AlertInternalError);
      (if cf_useDTLS (c_cfg c) then upd_ctx c (armRetransmit now (c_ctx c)) else c, Ok tt)
  | RekeyIn epoch k =>
      match f_rem (hl_frame (x_in (c_ctx c))) with
      | _ :: _ => (c, alert AlertDecodeError)
      | [] => let '(l, r) := layer_rekey E (c_in c) epoch k in (upd_in c l, or_alert r AlertInternalError)
      end
  | RekeyOut epoch k => let '(l, r) := layer_rekey E (c_out c) epoch k in (upd_out c l, or_alert r AlertInternalError)
  | ResetOut seq => (upd_out c (upd_core (c_out c) (resetClear (l_core (c_out c)) seq)), Ok tt)
  | StorePSK p =>
      match cf_psks (c_cfg c) with
      | None => (c, Panic)
      | Some _ =>
          let key := if c_isClient c then cf_serverName (c_cfg c) else hexEncode (psk_identity p) in
          (set_world c (set_psks (c_world c) (cache_put (w_psks (c_world c)) key p)), Ok tt)
      end
  end.
(** The loops over actions (conn.go:348-355, 667-673, 783-790, 807-814, 857-863): up to the first failure. *)
Fixpoint takeActions (E : env) (now : N) (c : conn) (l : list action) : conn * res unit :=
  match l with
  | [] => (c, Ok tt)
  | a :: l => call c, _ <- takeAction E now c a; takeActions E now c l
  end.

(** conn.go:645-693 *)
Definition handshakeSetup (E : env) (o : oracle) (c : conn) : conn * res unit :=
  let c := set_world c (world_init (c_world c)) in
  if c_isClient c then
    let '(w, r) := client_start (v_prims E) o (c_world c)
                     (mkCst (cf_serverName (c_cfg c)) (cf_nextProtos (c_cfg c)) no_params None None None) in
    call c, '(s, actions, _) <- (set_world c w, r);
    call c, _ <- takeActions E (o_ms o) c actions;
    (set_hState c s, Ok tt)
  else
    match cf_cookieProtector (c_cfg c) with
    | None =>
        if cf_requireCookie (c_cfg c) then
          if cf_nonBlocking (c_cfg c) then (c, alert AlertInternalError)
          else match o_protector o with
               | None => (c, alert AlertInternalError)
               | p => (set_hState (set_world c (set_cfg (c_world c) (set_protector (c_cfg c) p))) SStart, Ok tt)
               end
        else (set_hState c SStart, Ok tt)
    | Some _ => (set_hState c SStart, Ok tt)
    end.

(** conn.go:795-826: what is done on entering the connected state. The alert of [NewSessionTicket] itself is not looked
    at: there are no actions then. *)
Definition on_connected (E : env) (o : oracle) (c : conn) (s : connected) : conn * res unit :=
  let c := set_complete c s in
  if c_isClient c then match w_early (c_world c) with [] => (c, Ok tt) | _ => (c, Panic) end else
  call c, _ <- (if cf_sendSessionTickets (c_cfg c) then
                  let '(w, r) := newTicket (v_prims E) o (c_world c) s in
                  let c := set_world c w in
                  match r with
                  | Ok actions =>
                      match takeActions E (o_ms o) c actions with
                      | (c, Err (EAlert a)) => fail_alert c a
                      | p => p
                      end
                  | Err _ => (c, Ok tt)
                  | Panic => (c, Panic) | Fuel => (c, Fuel)
                  end
                else (c, Ok tt));
  (match w_early (c_world c) with
   | [] => c
   | early => set_readBuffer (set_world c (set_early (c_world c) [])) early
   end, Ok tt).

(** conn.go:760-826: one turn of the loop, from state [s]: the new state and whether it is AlertStatelessRetry. *)
Definition handshake_turn (E : env) (fuel : nat) (o : oracle) (c : conn) (s : hstate) : conn * res (hstate * bool) :=
  let '(w, r) := next (v_prims E) (v_pki E) o fuel (c_world c) s in
  let c := set_world c w in
  match r with
  | Ok (s, actions, retry) =>
      match takeActions E (o_ms o) c actions with
      | (c, Ok _) =>
          let c := set_hState c s in
          call c, _ <- match s with Connected k => on_connected E o c k | _ => (c, Ok tt) end;
          (c, Ok (s, retry))
      | (c, Err (EAlert a)) => fail_alert c a
      | (c, Err e) => (c, Err e)
      | (c, Panic) => (c, Panic)
      | (c, Fuel) => (c, Fuel)
      end
  | Err (EAlert a) =>
      if a =? AlertWouldBlock then
        if hl_datagram (x_in (c_ctx c)) then
          let '(x, r) := checkTimers (v_grow E) (o_ms o) (c_ctx c) in
          call c, _ <- (upd_ctx c x, or_alert r AlertInternalError);
          (c, alert AlertWouldBlock)
        else (c, alert AlertWouldBlock)
      else if a =? AlertCloseNotify then fail_alert c AlertCloseNotify
      else (c, alert a)
  | Err e => (c, Err e)
  | Panic => (c, Panic)
  | Fuel => (c, Fuel)
  end.
(** conn.go:756-837. Each turn uses one of the oracles [os]. *)
Fixpoint handshake_loop (E : env) (fuel : nat) (os : list oracle) (c : conn) (s : hstate) : conn * res unit :=
  match s with
  | Connected _ => (c, Ok tt)
  | _ =>
  match os with
  | [] => (c, Fuel)
  | o :: os =>
      call c, '(s, retry) <- handshake_turn E fuel o c s;
      if cf_nonBlocking (c_cfg c) then (c, if retry : bool then alert AlertStatelessRetry else Ok tt)
      else handshake_loop E fuel os c s
  end
  end.
(** conn.go:728-837. The first oracle is for [HandshakeSetup]. *)
Definition handshake (E : env) (fuel : nat) (os : list oracle) (c : conn) : conn * res unit :=
  if c_complete c then (c, Ok tt) else
  match c_hState c with
  | Some s => handshake_loop E fuel os c s
  | None =>
      match os with
      | [] => (c, Fuel)
      | o :: os =>
          call c, _ <- handshakeSetup E o c;
          if c_isClient c && cf_nonBlocking (c_cfg c) then (c, Ok tt)
          else match c_hState c with Some s => handshake_loop E fuel os c s | None => (c, Panic) end
      end
  end.

(** ** Reading *)

(** conn.go:317-365: the messages in a record, [fuel] at least its length. *)
Fixpoint post_messages (E : env) (fuel : nat) (o : oracle) (c : conn) (fragment : bytes) : conn * res unit :=
  match fragment with
  | [] => (c, Ok tt)
  | ty :: rest =>
  match fuel with
  | O => (c, Fuel)
  | S fuel =>
      let n := handshakeHeaderLen (cf_useDTLS (c_cfg c)) in
      if (List.length fragment <? n)%nat then (c, Err (EMsg "Post-handshake handshake message too short for header")) else
      let hmLen := N.to_nat (unbe (firstn 3 rest)) in
      let body := skipn n fragment in
      if (List.length body <? hmLen)%nat then (c, Err (EMsg "Post-handshake handshake message too short for body")) else
      let hm := mkHm ty 0 (firstn hmLen body) false 0 0 None in
      let '(w, r) := processMessage (v_prims E) (v_pki E) o (c_world c) (c_state c) hm in
      let c := set_world c w in
      match r with
      | Ok (s, actions) =>
          match takeActions E (o_ms o) c actions with
          | (c, Ok _) => post_messages E fuel o (set_state c s) (skipn hmLen body)
          | (c, Err (EAlert a)) => fail_eof c a
          | (c, r) => (c, r)
          end
      | Err (EAlert a) => fail_eof c a
      | Err e => (c, Err e)
      | Panic => (c, Panic) | Fuel => (c, Fuel)
      end
  end
  end.

(** conn.go:307-401 *)
Definition consumeRecord (E : env) (o : oracle) (c : conn) : conn * res unit :=
  let '(l, r) := readRecord (c_in c) in
  call c, pt <- (upd_in c l, r);
  let f := p_fragment pt in
  if Byte.eqb (p_type pt) rtHandshake then post_messages E (List.length f) o c f
  else if Byte.eqb (p_type pt) rtAlert then
    match f with
    | [x; y] =>
        if bN y =? AlertCloseNotify then (c, Err EOF)
        else if bN x =? AlertLevelWarning then (c, Ok tt)
        else if bN x =? AlertLevelError then (c, alert (bN y))
        else fail_eof c AlertUnexpectedMessage
    | _ => fail_eof c AlertUnexpectedMessage
    end
  else if Byte.eqb (p_type pt) rtAck then
    if negb (hl_datagram (x_in (c_ctx c))) then (c, alert AlertUnexpectedMessage)
    else let '(x, r) := processAck (o_ms o) (c_ctx c) f in (upd_ctx c x, r)
  else if Byte.eqb (p_type pt) rtApplicationData then (set_readBuffer c (c_readBuffer c ++ f), Ok tt)
  else (c, Ok tt).

(** conn.go:451-465, with an oracle for each record; conn.go:403-411. *)
Fixpoint read_loop (E : env) (os : list oracle) (c : conn) (n : nat) : conn * res bytes :=
  match c_readBuffer c with
  | _ :: _ => (set_readBuffer c (skipn n (c_readBuffer c)), Ok (firstn n (c_readBuffer c)))
  | [] =>
      match os with
      | [] => (c, Fuel)
      | o :: os =>
          match consumeRecord E o c with
          | (c, Ok _) => read_loop E os c n
          | (c, Err e) => if cf_nonBlocking (c_cfg c) || negb (is_wb e) then (c, Err e) else read_loop E os c n
          | (c, Panic) => (c, Panic)
          | (c, Fuel) => (c, Fuel)
          end
      end
  end.

Definition is_connected (c : conn) : bool := match c_hState c with Some (Connected _) => true | _ => false end.

(** conn.go:415-468 with a buffer of [n] bytes: the bytes put into it. *)
Definition read (E : env) (fuel : nat) (os : list oracle) (c : conn) (n : nat) : conn * res bytes :=
  if negb (is_connected c) then
    if c_isClient c then (c, Err (EMsg "Read called before the handshake completed"))
    else if negb (cf_allowEarlyData (c_cfg c)) then (c, Err (EMsg "Read called before the handshake completed"))
    else match w_early (c_world c) with
         | [] => (c, alert AlertWouldBlock)
         | early => (set_world c (set_early (c_world c) (skipn n early)), Ok (firstn n early))
         end
  else
    call c, _ <- handshake E fuel os c;
    if (n =? 0)%nat then (c, Ok []) else
    call c, _ <- (if cf_useDTLS (c_cfg c) then
                    match os with
                    | [] => (c, Fuel)
                    | o :: _ => let '(x, r) := checkTimers (v_grow E) (o_ms o) (c_ctx c) in (upd_ctx c x, or_alert r AlertInternalError)
                    end
                  else (c, Ok tt));
    read_loop E os c n.

(** ** Writing *)

(** conn.go:909-921 *)
Definition writable (c : conn) : bool :=
  is_connected c || (c_isClient c && (rl_epoch (l_core (c_out c)) =? EpochEarlyData)).

(** conn.go:482-506: how many bytes were sent, and the error if any. [fuel] at least the number of bytes. *)
Fixpoint write_loop (fuel : nat) (c : conn) (buffer : bytes) (sent : nat) : conn * (nat * res unit) :=
  match buffer with
  | [] => (c, (sent, Ok tt))
  | _ =>
  match fuel with
  | O => (c, (sent, Fuel))
  | S fuel =>
      let n := Nat.min (N.to_nat maxFragmentLen) (List.length buffer) in
      let '(l, r) := writeRecord (c_out c) (mkPt rtApplicationData 0 0 (firstn n buffer)) in
      let c := upd_out c l in
      match r with
      | Ok _ => write_loop fuel c (skipn n buffer) (sent + n)
      | r => (c, (sent, r))
      end
  end
  end.
(** conn.go:471-508 *)
Definition write (c : conn) (buffer : bytes) : conn * (nat * res unit) :=
  if negb (writable c) then (c, (0%nat, Err (EMsg "Write called before the handshake completed (and early data not in use)")))
  else write_loop (List.length buffer) c buffer 0.

(** ** Key updates, exporters, state *)

(** conn.go:839-866 *)
Definition sendKeyUpdate (E : env) (o : oracle) (c : conn) (requestUpdate : bool) : conn * res unit :=
  if negb (c_complete c) then (c, Err (EMsg "Cannot update keys until after handshake")) else
  let '((w, s), r) := keyUpdate (v_prims E) (c_world c) (c_state c) (if requestUpdate then KeyUpdateRequested else KeyUpdateNotRequested) in
  let c := set_state (set_world c w) s in
  match r with
  | Ok actions =>
      match takeActions E (o_ms o) c actions with
      | (c, Err (EAlert a)) => call c, _ <- sendAlert c a; (c, Err (EMsg "Alert during key update actions"))
      | p => p
      end
  | Err (EAlert a) => call c, _ <- sendAlert c a; (c, Err (EMsg "Alert while generating key update"))
  | Err e => (c, Err e)
  | Panic => (c, Panic) | Fuel => (c, Fuel)
  end.

(** conn.go:875-890. [Sum(context)] appends the hash of the empty string to the context. *)
Definition computeExporter (E : env) (c : conn) (label context : bytes) (keyLength : nat) : res bytes :=
  if negb (is_connected c) then Err (EMsg "Cannot compute exporter when state is not connected") else
  match sc_exporter (c_state c) with
  | [] => Err (EMsg "Internal error: no exporter secret")
  | _ =>
      let P := v_prims E in
      let s := sc_suite (c_state c) in
      let h0 := digest P (s_hash s) [] in
      let tmpSecret := deriveSecret P s (sc_exporter (c_state c)) label h0 in
      Ok (hkdfExpandLabel P (s_hash s) tmpSecret (str "exporter") (context ++ h0) keyLength)
  end.

(** common.go:167-192 *)
Inductive hsName :=
| StateInit
| StateClientStart | StateClientWaitSH | StateClientWaitEE | StateClientWaitCert | StateClientWaitCV | StateClientWaitFinished
| StateClientWaitCertCR | StateClientConnected
| StateServerStart | StateServerRecvdCH | StateServerNegotiated | StateServerReadPastEarlyData | StateServerWaitEOED
| StateServerWaitFlight2 | StateServerWaitCert | StateServerWaitCV | StateServerWaitFinished | StateServerConnected.
(** The [State] methods, e.g. client-state-machine.go:66-68 and state-machine.go:106-111. *)
Definition name_of (s : hstate) : hsName :=
  match s with
  | CStart _ => StateClientStart | CWaitSH _ => StateClientWaitSH | CWaitEE _ => StateClientWaitEE
  | CWaitCertCR _ => StateClientWaitCertCR | CWaitCert _ _ => StateClientWaitCert | CWaitCV _ _ _ => StateClientWaitCV
  | CWaitFinished _ _ _ _ _ => StateClientWaitFinished
  | SStart => StateServerStart | SNegotiated _ => StateServerNegotiated | SWaitEOED _ => StateServerWaitEOED
  | SReadPastEarlyData _ => StateServerReadPastEarlyData | SWaitFlight2 _ => StateServerWaitFlight2 | SWaitCert _ => StateServerWaitCert
  | SWaitCV _ _ => StateServerWaitCV | SWaitFinished _ _ => StateServerWaitFinished
  | Connected c => if sc_isClient c then StateClientConnected else StateServerConnected
  end.
(** conn.go:868-873 *)
Definition getHsState (c : conn) : hsName := match c_hState c with None => StateInit | Some s => name_of s end.

(** conn.go:250-258 *)
Record connectionState := mkConnState { cs_hs : hsName; cs_suite : suite; cs_peer : list bytes; cs_chains : list (list bytes);
  cs_nextProto : bytes; cs_usingPSK : bool; cs_usingEarlyData : bool }.
(** conn.go:892-907 *)
Definition connectionStateOf (c : conn) : connectionState :=
  if c_complete c then
    let s := c_state c in
    mkConnState (getHsState c) (match cipherSuiteMap (p_suite (sc_params s)) with Some p => p | None => no_suite end)
         (sc_peer s) (sc_chains s) (p_nextProto (sc_params s)) (p_usingPSK (sc_params s)) (p_usingEarlyData (sc_params s))
  else mkConnState (getHsState c) no_suite [] [] [] false false.
