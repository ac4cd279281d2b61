(** Specification vocabulary for the two ends of a handshake. *)
From Verif Require Import Base Record RecordSpec Handshake Crypto CryptoSpec Negotiation Machine Conn ConnSpec RunSpec SessionSpec.

(** ** Messages *)

Definition sent (evs : list event) : list hmsg := flat_map (fun e => match e with Sent m => [m] | Received _ => [] end) evs.
Definition received (evs : list event) : list hmsg := flat_map (fun e => match e with Sent _ => [] | Received m => [m] end) evs.
(** A message is received as it was sent. *)
Definition same_message (m m' : hmsg) : Prop := hm_marshal m = hm_marshal m' /\ hm_body m = hm_body m'.
(** What one end has received is what the other has sent, up to some point. *)
Definition delivered (sent received : list hmsg) : Prop := exists arrived rest, sent = arrived ++ rest /\ Forall2 same_message arrived received.

(** ** What the ends share *)

(** Key agreement on curves gives the same for both, for keys they have made. (For the finite-field groups this is
    proved.) *)
Definition curves_agree (Qc Qs : oracle -> Prop) (P : prims) : Prop := forall g puba priva pubb privb z, ~ In g ffdhe_groups ->
  own_key Qc P g puba priva -> own_key Qs P g pubb privb -> keyAgreement P g puba privb = Ok z -> keyAgreement P g pubb priva = Ok z.
(** If the server has a PSK under the identity of the client's PSK for it, it is the same PSK. *)
Definition shared_psk (ccfg scfg : config) (cpsks spsks : cache) : Prop := forall key key',
  cache_get (start_cache ccfg cpsks) (cf_serverName ccfg) = Some key -> cache_get (start_cache scfg spsks) (hexEncode (psk_identity key)) = Some key' ->
  psk_key key = psk_key key'.

(** ** Agreement *)

(** Both sessions have the secrets of one key schedule, and the same parameters. *)
Definition agree (P : prims) (k k' : connected) : Prop :=
  (exists early dhe t1 t2, session_secrets (hash_of P (sc_suite k)) early dhe t1 t2 k /\ session_secrets (hash_of P (sc_suite k)) early dhe t1 t2 k') /\
  sc_suite k = sc_suite k' /\ p_suite (sc_params k) = p_suite (sc_params k') /\
  p_usingPSK (sc_params k) = p_usingPSK (sc_params k') /\ p_usingDH (sc_params k) = p_usingDH (sc_params k') /\
  p_usingEarlyData (sc_params k) = p_usingEarlyData (sc_params k') /\ p_nextProto (sc_params k) = p_nextProto (sc_params k') /\
  sc_isClient k = true /\ sc_isClient k' = false.

(** ** Keys *)

(** A record layer protects with the keys of a traffic secret. *)
Definition uses_key (E : env) (s : suite) (r : rcore) (sec : bytes) : Prop :=
  let k := makeTrafficKeys (v_prims E) s sec in c_aead (cur r) = Some (v_gcm E (k_key k)) /\ c_iv (cur r) = k_iv k.
(** Two layers protect with the same AEAD, under the same key, and the same IV. *)
Definition same_key (r r' : rcore) : Prop := exists a iv, c_aead (cur r) = Some a /\ c_aead (cur r') = Some a /\ c_iv (cur r) = iv /\ c_iv (cur r') = iv.
(** Histories that have completed the handshake, without a failure, and have not updated keys: there was no [Read] or
    [SendKeyUpdate] since. *)
Inductive fresh_session (Q : oracle -> Prop) (E : env) (c0 : conn) : list event -> conn -> Prop :=
| fs_complete fuel os evs c c' r : steady Q E c0 evs c -> c_complete c = false -> Forall Q os -> handshake E fuel os c = (c', r) -> fine r -> c_complete c' = true ->
    fresh_session Q E c0 (evs ++ handshake_events E fuel os c) c'
| fs_handshake fuel os evs c : fresh_session Q E c0 evs c -> fresh_session Q E c0 evs (fst (handshake E fuel os c))
| fs_write evs c b : fresh_session Q E c0 evs c -> fresh_session Q E c0 evs (fst (write c b))
| fs_close evs c : fresh_session Q E c0 evs c -> fresh_session Q E c0 evs (close c)
| fs_input evs c data : fresh_session Q E c0 evs c -> fresh_session Q E c0 evs (arrives c data)
| fs_output evs c : fresh_session Q E c0 evs c -> fresh_session Q E c0 evs (taken c).

(** ** Pairs *)

(** The two ends of a connection, after a handshake in which each received what the other sent (see C35 for the
    conditions). *)
Record two_ends (Qc Qs : oracle -> Prop) (Ec Es : env) (ccfg scfg : config) (cpsks spsks : cache) (c s : conn) : Prop := mkEnds {
  te_prims : v_prims Ec = v_prims Es; te_sized : mac_sized (v_prims Ec); te_curves : curves_agree Qc Qs (v_prims Ec);
  te_psk : shared_psk ccfg scfg cpsks spsks; te_inverts : inverts Qs;
  te_chandler : cf_extensionHandler ccfg = None; te_shandler : cf_extensionHandler scfg = None; te_kind : cf_useDTLS ccfg = cf_useDTLS scfg;
  te_groups : NoDup (cf_groups (cfg_init ccfg)); te_cookie : cf_requireCookie scfg = true -> cf_useDTLS scfg = false;
  te_runs : exists cin sin cevs sevs, steady Qc Ec (newConn ccfg cpsks true cin) cevs c /\ steady Qs Es (newConn scfg spsks false sin) sevs s /\
    delivered (sent cevs) (received sevs) /\ delivered (sent sevs) (received cevs);
  te_client : c_complete c = true; te_server : c_complete s = true }.
