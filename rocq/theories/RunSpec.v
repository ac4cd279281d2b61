(** Specification vocabulary for handshakes: what was sent and received in a history of a connection, the transcript
    of it, and the state diagrams of RFC 8446. *)
From Verif Require Import Base Frame Record Handshake DtlsSpec Crypto Messages Pki Negotiation NegotiationSpec Machine Client Server Conn ConnSpec.

(** ** Events *)

Inductive event := Sent (m : hmsg) | Received (m : hmsg).

(** The message a turn of the machine starts by reading, if it is of those that do and there is one. *)
Definition got (p : world * res hmsg) : list event := match snd p with Ok m => [Received m] | _ => [] end.
Definition read_by (fuel : nat) (o : oracle) (w : world) (s : hstate) : list event :=
  match s with
  | CStart _ | SNegotiated _ | SReadPastEarlyData _ | SWaitFlight2 _ | Connected _ => []
  | SWaitEOED _ => match read_early fuel w with (w, Ok _) => got (hr_read fuel o w) | _ => [] end
  | _ => got (hr_read fuel o w)
  end.
(** The messages among the actions of a step. *)
Definition queued (p : world * res outcome) : list event :=
  match snd p with
  | Ok (_, acts, _) => flat_map (fun a => match a with QueueHandshakeMessage m => [Sent m] | _ => [] end) acts
  | _ => []
  end.
(** The events of a turn; a turn that fails has none. *)
Definition turn_events (E : env) (fuel : nat) (o : oracle) (c : conn) (s : hstate) : list event :=
  let p := next (v_prims E) (v_pki E) o fuel (c_world c) s in
  match snd p with Ok _ => read_by fuel o (c_world c) s ++ queued p | _ => [] end.
Fixpoint loop_events (E : env) (fuel : nat) (os : list oracle) (c : conn) (s : hstate) : list event :=
  match s with
  | Connected _ => []
  | _ =>
  match os with
  | [] => []
  | o :: os =>
      turn_events E fuel o c s ++
      match handshake_turn E fuel o c s with
      | (c, Ok (s, _)) => if cf_nonBlocking (c_cfg c) then [] else loop_events E fuel os c s
      | _ => []
      end
  end
  end.
(** What [HandshakeSetup] sends. *)
Definition setup_events (E : env) (o : oracle) (c : conn) : list event :=
  let c := set_world c (world_init (c_world c)) in
  if c_isClient c then
    queued (client_start (v_prims E) o (c_world c) (mkCst (cf_serverName (c_cfg c)) (cf_nextProtos (c_cfg c)) no_params None None None))
  else [].
(** The events of a call of [Handshake]. *)
Definition handshake_events (E : env) (fuel : nat) (os : list oracle) (c : conn) : list event :=
  if c_complete c then [] else
  match c_hState c with
  | Some s => loop_events E fuel os c s
  | None =>
      match os with
      | [] => []
      | o :: os =>
          setup_events E o c ++
          match handshakeSetup E o c with
          | (c, Ok _) =>
              if c_isClient c && cf_nonBlocking (c_cfg c) then []
              else match c_hState c with Some s => loop_events E fuel os c s | None => [] end
          | _ => []
          end
      end
  end.

(** ** Histories *)

(** A call of [Handshake] that returned no error: nil, AlertWouldBlock or AlertStatelessRetry. *)
Definition fine (r : res unit) : Prop := r = Ok tt \/ r = Err (EAlert 254) \/ r = Err (EAlert 253).
(** In blocking mode the call goes on until the handshake is complete or has failed. The turns that the oracles stand for
    have gone through, and it may wait for more input (the result is then [Fuel], and a further call of [handshake] is its
    continuation). *)
Fixpoint loop_blocked (E : env) (fuel : nat) (os : list oracle) (c : conn) (s : hstate) : Prop :=
  match os with
  | [] => True
  | o :: os => match handshake_turn E fuel o c s with (c, Ok (s, _)) => loop_blocked E fuel os c s | _ => False end
  end.
Definition blocked (E : env) (fuel : nat) (os : list oracle) (c : conn) : Prop :=
  match c_hState c with
  | Some s => loop_blocked E fuel os c s
  | None =>
      match os with
      | [] => True
      | o :: os => match handshakeSetup E o c with (c, Ok _) => match c_hState c with Some s => loop_blocked E fuel os c s | None => False end | _ => False end
      end
  end.
(** The uses of a connection other than a call of [Handshake]. *)
Inductive other_use (E : env) : conn -> conn -> Prop :=
| ou_read fuel os c n : other_use E c (fst (read E fuel os c n))
| ou_write c b : other_use E c (fst (write c b))
| ou_update o c b : other_use E c (fst (sendKeyUpdate E o c b))
| ou_close c : other_use E c (close c)
| ou_input c data : other_use E c (arrives c data)
| ou_output c : other_use E c (taken c).
(** Histories in which no call of [Handshake] failed, with the handshake messages sent and received. What the program
    outside (random source, clock, callbacks) does in those calls is in [Q]. *)
Inductive steady (Q : oracle -> Prop) (E : env) (c0 : conn) : list event -> conn -> Prop :=
| steady_new : steady Q E c0 [] c0
| steady_handshake fuel os evs c c' r : steady Q E c0 evs c -> Forall Q os -> handshake E fuel os c = (c', r) -> fine r \/ blocked E fuel os c ->
    steady Q E c0 (evs ++ handshake_events E fuel os c) c'
| steady_other evs c c' : steady Q E c0 evs c -> other_use E c c' -> steady Q E c0 evs c'.

(** ** The transcript *)

(** A HelloRetryRequest is a ServerHello whose random value is the SHA-256 of "HelloRetryRequest" (RFC 8446 section 4.1.3);
    the random value follows the two bytes of the version. *)
Definition retry_random : bytes := be 32 0xCF21AD74E59A6111BE1D8C021E65B891C2A211167ABB8C5E079E09E2C8A8339C.
Definition is_retry (m : hmsg) : bool := Byte.eqb (hm_type m) (b8 2) && beqb (firstn 32 (skipn 2 (hm_body m))) retry_random.
(** The synthetic message that replaces the first ClientHello (RFC 8446 section 4.4.1), as the code has it: the length in
    its header is zero. *)
Definition synthetic (digest : bytes) : bytes := be 1 254 ++ be 3 0 ++ digest.
(** A client's transcript: each message as it was sent or received; a HelloRetryRequest starts it again with the
    synthetic message for the last ClientHello. *)
Definition note (H : bytes -> bytes) (t : bytes * bytes) (e : event) : bytes * bytes :=
  match e with
  | Sent m => (fst t ++ hm_marshal m, if Byte.eqb (hm_type m) (b8 1) then hm_marshal m else snd t)
  | Received m => (if is_retry m then synthetic (H (snd t)) ++ hm_marshal m else fst t ++ hm_marshal m, snd t)
  end.
Definition transcript (H : bytes -> bytes) (evs : list event) : bytes := fst (fold_left (note H) evs ([], [])).

(** A server keeps nothing from one ClientHello to the next: the events from the last one received on. *)
Fixpoint since_hello (evs : list event) : list event :=
  match evs with
  | [] => []
  | e :: rest =>
      match since_hello rest with
      | [] => match e with Received m => if Byte.eqb (hm_type m) (b8 1) then e :: rest else [] | Sent _ => [] end
      | l => l
      end
  end.
Definition encoding (evs : list event) : bytes :=
  concat (map (fun e => match e with Sent m | Received m => hm_marshal m end) evs).

(** ** Keys *)

(** A hash function, its HMAC and its size. *)
Record rfc_hash := mkRh { rh_hash : bytes -> bytes; rh_mac : bytes -> bytes -> bytes; rh_size : nat }.
Definition hash_of (P : prims) (s : suite) : rfc_hash := mkRh (digest P (s_hash s)) (hmac P (s_hash s)) (hsize (s_hash s)).
(** RFC 8446 section 7.1: Derive-Secret over a transcript, and the chain of secrets. *)
Definition Derive_Secret (h : rfc_hash) (secret : bytes) (label : string) (transcript : bytes) : bytes :=
  Expand_Label8446 (rh_mac h) secret (str label) (rh_hash h transcript) (rh_size h).
Definition zero (h : rfc_hash) : bytes := repeat x00 (rh_size h).
Definition Early_Secret (h : rfc_hash) (psk : bytes) : bytes := rh_mac h (zero h) psk.
Definition Handshake_Secret (h : rfc_hash) (early dhe : bytes) : bytes := rh_mac h (Derive_Secret h early "derived" []) dhe.
Definition Master_Secret (h : rfc_hash) (handshake : bytes) : bytes := rh_mac h (Derive_Secret h handshake "derived" []) (zero h).
(** RFC 8446 section 4.4.4: the verify data of Finished. *)
Definition verify_data (h : rfc_hash) (base_key transcript : bytes) : bytes :=
  rh_mac h (Expand_Label8446 (rh_mac h) base_key (str "finished") [] (rh_size h)) (rh_hash h transcript).

(** ** The state diagrams *)

(** [follows step p evs q]: the events lead from [p] to [q]. *)
Inductive follows {A} (step : A -> event -> A -> Prop) (p : A) : list event -> A -> Prop :=
| follows_nil : follows step p [] p
| follows_snoc evs q e r : follows step p evs q -> step q e r -> follows step p (evs ++ [e]) r.

(** RFC 8446 appendix A.1, with a state for each point in the client's last flight; [asked] tells whether the server has
    sent a CertificateRequest. *)
Inductive cphase :=
| C_START | C_WAIT_SH | C_WAIT_EE | C_WAIT_CERT_CR | C_WAIT_CERT | C_WAIT_CV (asked : bool) | C_WAIT_FINISHED (asked : bool)
| C_SEND_EOED (asked : bool) | C_SEND_CERT (asked : bool) | C_SEND_CV | C_SEND_FINISHED | C_CONNECTED.
Definition is_type (m : hmsg) (n : N) : Prop := hm_type m = b8 n.
Inductive client_diagram : cphase -> event -> cphase -> Prop :=
| cd_hello m : is_type m 1 -> client_diagram C_START (Sent m) C_WAIT_SH
| cd_retry m : is_type m 2 -> is_retry m = true -> client_diagram C_WAIT_SH (Received m) C_START
| cd_server_hello m : is_type m 2 -> is_retry m = false -> client_diagram C_WAIT_SH (Received m) C_WAIT_EE
| cd_ee m : is_type m 8 -> client_diagram C_WAIT_EE (Received m) C_WAIT_CERT_CR
| cd_ee_psk m : is_type m 8 -> client_diagram C_WAIT_EE (Received m) (C_WAIT_FINISHED false)
| cd_certificate m : is_type m 11 -> client_diagram C_WAIT_CERT_CR (Received m) (C_WAIT_CV false)
| cd_request m : is_type m 13 -> client_diagram C_WAIT_CERT_CR (Received m) C_WAIT_CERT
| cd_certificate' m : is_type m 11 -> client_diagram C_WAIT_CERT (Received m) (C_WAIT_CV true)
| cd_verify asked m : is_type m 15 -> client_diagram (C_WAIT_CV asked) (Received m) (C_WAIT_FINISHED asked)
| cd_finished asked m : is_type m 20 -> client_diagram (C_WAIT_FINISHED asked) (Received m) (C_SEND_EOED asked)
| cd_send_eoed asked m : is_type m 5 -> client_diagram (C_SEND_EOED asked) (Sent m) (C_SEND_CERT asked)
| cd_send_certificate p m : p = C_SEND_EOED true \/ p = C_SEND_CERT true -> is_type m 11 -> client_diagram p (Sent m) C_SEND_CV
| cd_send_verify m : is_type m 15 -> client_diagram C_SEND_CV (Sent m) C_SEND_FINISHED
| cd_send_finished p m : p = C_SEND_EOED false \/ p = C_SEND_CERT false \/ p = C_SEND_CV \/ p = C_SEND_FINISHED -> is_type m 20 ->
    client_diagram p (Sent m) C_CONNECTED.

(** RFC 8446 appendix A.2, with a state for each point in the server's flight; [asked] tells whether it has sent a
    CertificateRequest. *)
Inductive sphase :=
| S_START | S_RECVD_CH | S_SEND_EE | S_SEND_CR | S_SEND_CERT | S_SEND_CV (asked : bool) | S_SEND_FINISHED (asked : bool)
| S_WAIT_EOED (asked : bool) | S_WAIT_FLIGHT2 (asked : bool) | S_WAIT_CV | S_WAIT_FINISHED | S_CONNECTED.
Inductive server_diagram : sphase -> event -> sphase -> Prop :=
| sd_hello m : is_type m 1 -> server_diagram S_START (Received m) S_RECVD_CH
| sd_retry m : is_type m 2 -> is_retry m = true -> server_diagram S_RECVD_CH (Sent m) S_START
| sd_server_hello m : is_type m 2 -> server_diagram S_RECVD_CH (Sent m) S_SEND_EE
| sd_ee m : is_type m 8 -> server_diagram S_SEND_EE (Sent m) S_SEND_CR
| sd_request m : is_type m 13 -> server_diagram S_SEND_CR (Sent m) S_SEND_CERT
| sd_certificate m : is_type m 11 -> server_diagram S_SEND_CR (Sent m) (S_SEND_CV false)
| sd_certificate' m : is_type m 11 -> server_diagram S_SEND_CERT (Sent m) (S_SEND_CV true)
| sd_verify asked m : is_type m 15 -> server_diagram (S_SEND_CV asked) (Sent m) (S_SEND_FINISHED asked)
| sd_finished asked p q m : p = S_SEND_FINISHED asked \/ (p = S_SEND_CR /\ asked = false) -> q = S_WAIT_EOED asked \/ q = S_WAIT_FLIGHT2 asked ->
    is_type m 20 -> server_diagram p (Sent m) q
| sd_eoed asked m : is_type m 5 -> server_diagram (S_WAIT_EOED asked) (Received m) (S_WAIT_FLIGHT2 asked)
| sd_client_certificate m : is_type m 11 -> server_diagram (S_WAIT_FLIGHT2 true) (Received m) S_WAIT_CV
| sd_client_certificate_empty m : is_type m 11 -> server_diagram (S_WAIT_FLIGHT2 true) (Received m) S_WAIT_FINISHED
| sd_client_verify m : is_type m 15 -> server_diagram S_WAIT_CV (Received m) S_WAIT_FINISHED
| sd_client_finished p m : p = S_WAIT_FLIGHT2 false \/ p = S_WAIT_FINISHED -> is_type m 20 -> server_diagram p (Received m) S_CONNECTED.

(** The message types (RFC 8446 section 4) a state waits for. *)
Definition awaited (s : hstate) : list N :=
  match s with
  | SStart => [1] | CWaitSH _ => [2] | SWaitEOED _ => [5] | CWaitEE _ => [8]
  | CWaitCertCR _ => [11; 13] | CWaitCert _ _ | SWaitCert _ => [11]
  | CWaitCV _ _ _ | SWaitCV _ _ => [15] | CWaitFinished _ _ _ _ _ | SWaitFinished _ _ => [20]
  | _ => []
  end.
(** The keys, their epochs and the choice of the current one are as before, in both directions. *)
Definition same_cipher (r r' : rcore) : Prop :=
  r_cipher r' = r_cipher r /\ r_readCiphers r' = r_readCiphers r /\ List.length (r_heap r') = List.length (r_heap r) /\
  forall i, same_keys (get_cs r i) (get_cs r' i).
Definition no_new_keys (c c' : conn) : Prop :=
  same_cipher (l_core (c_in c)) (l_core (c_in c')) /\ same_cipher (l_core (c_out c)) (l_core (c_out c')).
