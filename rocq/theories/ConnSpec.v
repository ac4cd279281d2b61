(** Specification vocabulary for connections. *)
From Verif Require Import Base Frame Record Handshake Crypto Messages Pki Negotiation Machine Conn.

(** The other side of the transport provides more input. *)
Definition arrives (c : conn) (data : list rin) : conn :=
  let l := c_in c in upd_in c (mkRl (l_core l) (l_frame l) (l_cached l) (l_in l ++ data) (l_out l)).

(** The transport takes away what was written. *)
Definition taken (c : conn) : conn :=
  let l := c_out c in upd_out c (mkRl (l_core l) (l_frame l) (l_cached l) (l_in l) []).

(** One use of a connection: a call of the API (with any outcome), input arriving, or output taken away. *)
Inductive api (E : env) : conn -> conn -> Prop :=
| api_handshake fuel os c : api E c (fst (handshake E fuel os c))
| api_read fuel os c n : api E c (fst (read E fuel os c n))
| api_write c b : api E c (fst (write c b))
| api_update o c b : api E c (fst (sendKeyUpdate E o c b))
| api_close c : api E c (close c)
| api_input c data : api E c (arrives c data)
| api_output c : api E c (taken c).
Inductive used (E : env) (c0 : conn) : conn -> Prop :=
| used_new : used E c0 c0
| used_more c c' : used E c0 c -> api E c c' -> used E c0 c'.

(** A field that keeps its value if it has one and is given a default otherwise. *)
Definition filled {A} (empty : A) (default before after : A) : Prop :=
  (before <> empty -> after = before) /\ (before = empty -> after = default).

(** Two configurations agree on every field but the record layer factory (conn.go:68-137). *)
Definition agree_but_record_layer (a b : config) : Prop :=
  cf_serverName a = cf_serverName b /\
  cf_sendSessionTickets a = cf_sendSessionTickets b /\ cf_ticketLifetime a = cf_ticketLifetime b /\ cf_ticketLen a = cf_ticketLen b /\
  cf_earlyDataLifetime a = cf_earlyDataLifetime b /\ cf_allowEarlyData a = cf_allowEarlyData b /\
  cf_requireCookie a = cf_requireCookie b /\ cf_cookieHandler a = cf_cookieHandler b /\ cf_cookieProtector a = cf_cookieProtector b /\
  cf_extensionHandler a = cf_extensionHandler b /\ cf_requireClientAuth a = cf_requireClientAuth b /\
  cf_time a = cf_time b /\ cf_rootCAs a = cf_rootCAs b /\ cf_insecureSkipVerify a = cf_insecureSkipVerify b /\
  cf_certificates a = cf_certificates b /\ cf_verifyPeerCertificate a = cf_verifyPeerCertificate b /\
  cf_cipherSuites a = cf_cipherSuites b /\ cf_groups a = cf_groups b /\ cf_signatureSchemes a = cf_signatureSchemes b /\
  cf_nextProtos a = cf_nextProtos b /\ cf_psks a = cf_psks b /\ cf_pskModes a = cf_pskModes b /\
  cf_nonBlocking a = cf_nonBlocking b /\ cf_useDTLS a = cf_useDTLS b.
(** The same, but for the cipher suites or the cookie protector. *)
Definition agree_but_suites (a b : config) : Prop := exists l, set_suites a l = set_suites b l.
Definition agree_but_protector (a b : config) : Prop := exists p, set_protector a p = set_protector b p.

(** ** Data *)

(** A use of a connection with the bytes it returns to the application. *)
Inductive returns (E : env) : conn -> bytes -> conn -> Prop :=
| ret_read fuel os c n c' d : read E fuel os c n = (c', Ok d) -> returns E c d c'
| ret_read_failed fuel os c n c' r : read E fuel os c n = (c', r) -> (forall d, r <> Ok d) -> returns E c [] c'
| ret_handshake fuel os c : returns E c [] (fst (handshake E fuel os c))
| ret_write c b : returns E c [] (fst (write c b))
| ret_update o c b : returns E c [] (fst (sendKeyUpdate E o c b))
| ret_close c : returns E c [] (close c)
| ret_input c data : returns E c [] (arrives c data)
| ret_output c : returns E c [] (taken c).
(** Received and not yet returned: early data, then the rest. *)
Definition pending (c : conn) : bytes := w_early (c_world c) ++ c_readBuffer c.
(** The contents of application data records read off some layer, one after the other. *)
Definition from_records (data : bytes) : Prop :=
  exists pieces, data = concat pieces /\
    Forall (fun p => exists l l' pt, readRecord l = (l', Ok pt) /\ p_type pt = x17 /\ p_fragment pt = p) pieces.
(** No call failed after it had completed the handshake (that happens when a session ticket cannot be sent, conn.go:807-814). *)
Definition settled (c : conn) : Prop := c_complete c = true -> w_early (c_world c) = [].
(** Histories with what was returned in all. *)
Inductive history (E : env) (c0 : conn) : bytes -> conn -> Prop :=
| hist_new : history E c0 [] c0
| hist_more out c d c' : history E c0 out c -> returns E c d c' -> settled c' -> history E c0 (out ++ d) c'.
