(** Specification vocabulary for a whole connection over a stream: two new ends, the network between them, and what is
    done with them. *)
From Verif Require Import Base Frame Record RecordSpec Handshake Crypto CryptoSpec Messages Negotiation Machine Conn ConnSpec RunSpec SessionSpec AgreeSpec ChannelSpec.

(** The messages sent fit the three bytes of their length. *)
Definition small (evs : list event) : Prop := Forall (fun m => len (hm_body m) < 2 ^ 24) (sent evs).
(** A call other than [Handshake] that does not crash, with the bytes accepted from the application and those returned
    to it. *)
Inductive use_of (E : env) (c : conn) : bytes -> bytes -> conn -> Prop :=
| us_write b c' n r : write c b = (c', (n, r)) -> r <> Panic -> use_of E c (firstn n b) [] c'
| us_read fuel os n c' r : read E fuel os c n = (c', r) -> r <> Panic -> use_of E c [] (match r with Ok d => d | _ => [] end) c'
| us_update o b c' r : sendKeyUpdate E o c b = (c', r) -> r <> Panic -> use_of E c [] [] c'.

(** The network takes what a call has written, and delivers bytes in the order they were written, in pieces of any
    size. *)
Definition client_calls (n : net) (c : conn) : net := mkNet (taken c) (n_server n) (n_up n ++ concat (l_out (c_out c))) (n_down n).
Definition server_calls (n : net) (c : conn) : net := mkNet (n_client n) (taken c) (n_up n) (n_down n ++ concat (l_out (c_out c))).

(** [session cevs sevs t n]: starting from two new ends, calls and deliveries in any order have led to [n]. No call of
    [Handshake] has failed (one that would block has not; in blocking mode a call that still waits is continued by the
    next one). The handshake messages the client and the server have sent and
    received are [cevs] and [sevs], and [t] is what the applications have written and got. *)
Inductive session (Qc Qs : oracle -> Prop) (E : env) (ccfg scfg : config) (cpsks spsks : cache) : list event -> list event -> traffic -> net -> Prop :=
| sn_new : session Qc Qs E ccfg scfg cpsks spsks [] [] (mkTr [] [] [] []) (mkNet (newConn ccfg cpsks true []) (newConn scfg spsks false []) [] [])
| sn_client_handshake ce se t n fuel os c' r : session Qc Qs E ccfg scfg cpsks spsks ce se t n -> Forall Qc os -> handshake E fuel os (n_client n) = (c', r) -> fine r \/ blocked E fuel os (n_client n) ->
    small (handshake_events E fuel os (n_client n)) ->
    session Qc Qs E ccfg scfg cpsks spsks (ce ++ handshake_events E fuel os (n_client n)) se t (client_calls n c')
| sn_server_handshake ce se t n fuel os c' r : session Qc Qs E ccfg scfg cpsks spsks ce se t n -> Forall Qs os -> handshake E fuel os (n_server n) = (c', r) -> fine r \/ blocked E fuel os (n_server n) ->
    small (handshake_events E fuel os (n_server n)) ->
    session Qc Qs E ccfg scfg cpsks spsks ce (se ++ handshake_events E fuel os (n_server n)) t (server_calls n c')
| sn_client_use ce se t n w g c' : session Qc Qs E ccfg scfg cpsks spsks ce se t n -> use_of E (n_client n) w g c' ->
    session Qc Qs E ccfg scfg cpsks spsks ce se (mkTr (wrote_c t ++ w) (got_c t ++ g) (wrote_s t) (got_s t)) (client_calls n c')
| sn_server_use ce se t n w g c' : session Qc Qs E ccfg scfg cpsks spsks ce se t n -> use_of E (n_server n) w g c' ->
    session Qc Qs E ccfg scfg cpsks spsks ce se (mkTr (wrote_c t) (got_c t) (wrote_s t ++ w) (got_s t ++ g)) (server_calls n c')
| sn_deliver_server ce se t n x y : session Qc Qs E ccfg scfg cpsks spsks ce se t n -> n_up n = x ++ y ->
    session Qc Qs E ccfg scfg cpsks spsks ce se t (mkNet (n_client n) (arrives (n_server n) [RBytes x]) y (n_down n))
| sn_deliver_client ce se t n x y : session Qc Qs E ccfg scfg cpsks spsks ce se t n -> n_down n = x ++ y ->
    session Qc Qs E ccfg scfg cpsks spsks ce se t (mkNet (arrives (n_client n) [RBytes x]) (n_server n) (n_up n) y).

(** The conditions: those of C35; a stream; no early data; tickets that fit a record. *)
Record joint_ok (Qc Qs : oracle -> Prop) (E : env) (ccfg scfg : config) (cpsks spsks : cache) : Prop := mkJoint {
  jo_sized : mac_sized (v_prims E); jo_gcm : gcm_ok E; jo_curves : curves_agree Qc Qs (v_prims E);
  jo_psk : shared_psk ccfg scfg cpsks spsks; jo_inverts : inverts Qs;
  jo_chandler : cf_extensionHandler ccfg = None; jo_shandler : cf_extensionHandler scfg = None;
  jo_ctls : cf_useDTLS ccfg = false; jo_stls : cf_useDTLS scfg = false;
  jo_groups : NoDup (cf_groups (cfg_init ccfg)); jo_early : cf_allowEarlyData ccfg = false;
  jo_tickets : forall o buf, Qs o -> o_ticket o = Some buf -> len buf <= 16000 }.
