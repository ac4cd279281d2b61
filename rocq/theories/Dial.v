(** Model of /repo/tls.go: dialling and listening. *)
From Verif Require Import Base Frame Record Handshake Crypto Messages Pki Negotiation Machine Conn ConnSpec.

(** [strings.LastIndex(addr, ":")] (tls.go:123); [None] is -1. *)
Fixpoint lastColon (addr : bytes) : option nat :=
  match addr with
  | [] => None
  | b :: addr =>
      match lastColon addr with
      | Some i => Some (S i)
      | None => if Byte.eqb b x3a then Some O else None
      end
  end.
(** tls.go:123-127 *)
Definition hostname (addr : bytes) : bytes := match lastColon addr with Some i => firstn i addr | None => addr end.

(** [&Config{}] (tls.go:130) *)
Definition zero_config : config :=
  mkCfg [] false 0 0 0 false false None None None false None None false [] None [] [] [] [] None [] false false None.
(** tls.go:138, 143 *)
Definition set_serverName (c : config) (n : bytes) : config :=
  mkCfg n (cf_sendSessionTickets c) (cf_ticketLifetime c) (cf_ticketLen c) (cf_earlyDataLifetime c)
    (cf_allowEarlyData c) (cf_requireCookie c) (cf_cookieHandler c) (cf_cookieProtector c) (cf_extensionHandler c)
    (cf_requireClientAuth c) (cf_time c) (cf_rootCAs c) (cf_insecureSkipVerify c) (cf_certificates c)
    (cf_verifyPeerCertificate c) (cf_cipherSuites c) (cf_groups c) (cf_signatureSchemes c) (cf_nextProtos c) (cf_psks c) (cf_pskModes c)
    (cf_nonBlocking c) (cf_useDTLS c) (cf_recordLayer c).
Definition set_useDTLS (c : config) (b : bool) : config :=
  mkCfg (cf_serverName c) (cf_sendSessionTickets c) (cf_ticketLifetime c) (cf_ticketLen c) (cf_earlyDataLifetime c)
    (cf_allowEarlyData c) (cf_requireCookie c) (cf_cookieHandler c) (cf_cookieProtector c) (cf_extensionHandler c)
    (cf_requireClientAuth c) (cf_time c) (cf_rootCAs c) (cf_insecureSkipVerify c) (cf_certificates c)
    (cf_verifyPeerCertificate c) (cf_cipherSuites c) (cf_groups c) (cf_signatureSchemes c) (cf_nextProtos c) (cf_psks c) (cf_pskModes c)
    (cf_nonBlocking c) b (cf_recordLayer c).
(** tls.go:129-143: the configuration of the connection. *)
Definition dialConfig (network addr : bytes) (cfg : option config) : config :=
  let c := match cfg with None => zero_config | Some c => cfg_clone c end in
  let c := match cf_serverName c with [] => set_serverName c (hostname addr) | _ => c end in
  set_useDTLS c (beqb network (str "udp")).

(** A blocking call of [Handshake] goes on as input arrives. Each round is the arrival of some input and the turns of the
    handshake's loop that it allows; [Fuel] after the last one means that the call still waits. *)
Definition round : Type := nat * list oracle * list rin.
Fixpoint waitHandshake (E : env) (rounds : list round) (c : conn) : conn * res unit :=
  match rounds with
  | [] => (c, Fuel)
  | (fuel, os, data) :: rounds =>
      match handshake E fuel os (arrives c data) with
      | (c, Fuel) => waitHandshake E rounds c
      | p => p
      end
  end.

(** tls.go:92-169. [raw] is the outcome of [dialer.Dial] with what can be read from the connection at once; [late] says that
    a time limit was set and its error was the first in the channel (tls.go:109-116, 152-161). Closing the connection after a failure is not
    modelled: it is not returned. *)
Definition dialWithDialer (E : env) (network addr : bytes) (cfg : option config) (psks : cache) (raw : res (list rin)) (late : bool)
    (rounds : list round) : res conn :=
  if match cfg with Some c => cf_nonBlocking c | None => false end then Err (EMsg "dialing not possible in non-blocking mode") else
  do input <- raw;
  let '(c, r) := waitHandshake E rounds (newConn (dialConfig network addr cfg) psks true input) in
  if late then Err (EMsg "tls: DialWithDialer timed out") else
  do _ <- r; Ok c.
(** tls.go:177-179: no time limit. *)
Definition dial (E : env) (network addr : bytes) (cfg : option config) (psks : cache) (raw : res (list rin)) (rounds : list round) : res conn :=
  dialWithDialer E network addr cfg psks raw false rounds.

(** tls.go:54-62: the configuration of the listener, [None] for nil. *)
Definition newListener (cfg : option config) : res (option config) :=
  if match cfg with Some c => cf_nonBlocking c | None => false end then Err (EMsg "listening not possible in non-blocking mode") else Ok cfg.
(** tls.go:68-77. [net] is the outcome of [net.Listen]. *)
Definition listen (cfg : option config) (psks : cache) (net : res unit) : res (option config) :=
  if match cfg with Some c => negb (validForServer c psks) | None => true end
  then Err (EMsg "tls: neither Certificates nor GetCertificate set in Config") else
  do _ <- net; newListener cfg.
(** tls.go:36-48: the connection is returned along with the error. [NewConn] dereferences the configuration (conn.go:281). *)
Definition accept (E : env) (listener : option config) (psks : cache) (raw : res (list rin)) (rounds : list round) : option conn * res unit :=
  match raw with
  | Ok input =>
      match listener with
      | None => (None, Panic)
      | Some cfg => let '(c, r) := waitHandshake E rounds (newConn cfg psks false input) in (Some c, r)
      end
  | Err e => (None, Err e)
  | Panic => (None, Panic)
  | Fuel => (None, Fuel)
  end.
