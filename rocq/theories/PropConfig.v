(** Properties C51, C52 and C55: configurations. *)
From Verif Require Import Base Frame Record Handshake Crypto Messages Pki Negotiation Machine Conn ConnSpec ConnProofs Toy.

(** ** C51 *)

(** Clone forgets the record layer factory. *)
Theorem C51_clone_refuted : exists c : config, cfg_clone c <> c.
Proof.
  exists (mkCfg toy_name false 0 0 0 false false None None None false None None false [toy_cert] None [] [P256] [] [] (Some 1) [] true false (Some 5)).
  intros H. apply (f_equal cf_recordLayer) in H. discriminate.
Qed.
Print Assumptions C51_clone_refuted.
(** Full statement: [forall c, cfg_clone c = c]. It fails for the field RecordLayer alone, and only when it is set. *)
Theorem C51_clone_partial : forall c : config, agree_but_record_layer (cfg_clone c) c /\ (cfg_clone c = c <-> cf_recordLayer c = None).
Proof.
  intros c.  split; [repeat split|exact (clone_iff c)].
Qed.
Print Assumptions C51_clone_partial.
Example C51_case : cfg_clone toy_config = toy_config /\ cf_certificates toy_config = [toy_cert].
Proof. split; reflexivity. Qed.

(** ** C52 *)

(** The fields that are filled in, with their defaults (in the codes of the standard: TLS_AES_128_GCM_SHA256 and
    TLS_AES_256_GCM_SHA384; secp256r1, secp384r1, ffdhe2048, x25519; rsa_pss_rsae_sha256 to sha512 and ecdsa; psk_ke and
    psk_dhe_ke), and all the others. *)
Theorem C52_fills_gaps : forall c : config,
  filled [] [4865; 4866] (cf_cipherSuites c) (cf_cipherSuites (cfg_init c)) /\
  filled [] [23; 24; 256; 29] (cf_groups c) (cf_groups (cfg_init c)) /\
  filled [] [2052; 2053; 2054; 1027; 1283; 1539] (cf_signatureSchemes c) (cf_signatureSchemes (cfg_init c)) /\
  filled [] [0; 1] (cf_pskModes c) (cf_pskModes (cfg_init c)) /\
  filled 0%Z 16%Z (cf_ticketLen c) (cf_ticketLen (cfg_init c)) /\
  (cf_psks c <> None -> cf_psks (cfg_init c) = cf_psks c) /\ cf_psks (cfg_init c) <> None /\
  cf_serverName (cfg_init c) = cf_serverName c /\ cf_sendSessionTickets (cfg_init c) = cf_sendSessionTickets c /\
  cf_ticketLifetime (cfg_init c) = cf_ticketLifetime c /\ cf_earlyDataLifetime (cfg_init c) = cf_earlyDataLifetime c /\
  cf_allowEarlyData (cfg_init c) = cf_allowEarlyData c /\ cf_requireCookie (cfg_init c) = cf_requireCookie c /\
  cf_cookieHandler (cfg_init c) = cf_cookieHandler c /\ cf_cookieProtector (cfg_init c) = cf_cookieProtector c /\
  cf_extensionHandler (cfg_init c) = cf_extensionHandler c /\ cf_requireClientAuth (cfg_init c) = cf_requireClientAuth c /\
  cf_time (cfg_init c) = cf_time c /\ cf_rootCAs (cfg_init c) = cf_rootCAs c /\ cf_insecureSkipVerify (cfg_init c) = cf_insecureSkipVerify c /\
  cf_certificates (cfg_init c) = cf_certificates c /\ cf_verifyPeerCertificate (cfg_init c) = cf_verifyPeerCertificate c /\
  cf_nextProtos (cfg_init c) = cf_nextProtos c /\ cf_nonBlocking (cfg_init c) = cf_nonBlocking c /\ cf_useDTLS (cfg_init c) = cf_useDTLS c /\
  cf_recordLayer (cfg_init c) = cf_recordLayer c.
Proof. exact init_fields. Qed.
Print Assumptions C52_fills_gaps.
(** Doing it again changes nothing, neither in the configuration nor in the cache it names. *)
Theorem C52_idempotent : forall w : world, world_init (world_init w) = world_init w /\ cfg_init (cfg_init (w_cfg w)) = cfg_init (w_cfg w).
Proof. exact (fun w => conj (world_init_idem w) (cfg_init_idem (w_cfg w))). Qed.
Print Assumptions C52_idempotent.
(** The cache a user gave keeps its contents. *)
Theorem C52_cache_kept : forall w : world, cf_psks (w_cfg w) <> None -> w_psks (world_init w) = w_psks w.
Proof. exact world_init_psks. Qed.
Print Assumptions C52_cache_kept.
Example C52_case :
  cf_cipherSuites psk_config = [4865] /\ cf_cipherSuites (cfg_init psk_config) = [4865] /\
  cf_signatureSchemes psk_config = [] /\ List.length (cf_signatureSchemes (cfg_init psk_config)) = 6%nat.
Proof. repeat split. Qed.

(** ** C55 *)

(** A client that is sent a HelloRetryRequest leaves only one suite in the configuration. *)
Theorem C55_client_refuted : exists (E : env) (cfg : config) (c : conn),
  used E (newConn cfg [] true []) c /\ is_connected c = true /\
  cf_cipherSuites (cfg_init cfg) = [4865; 4866] /\ cf_cipherSuites (c_cfg c) = [4865].
Proof.
  exists toy_env, toy_config, (fst (fst hrr_run)). split; [apply (used_joint 12 1 (pair_of toy_config cookie_config [] []))|].
  split; [vm_compute; reflexivity|]. split; vm_compute; reflexivity.
Qed.
Print Assumptions C55_client_refuted.
(** A server that needs a cookie protector puts a new one into the configuration. *)
Theorem C55_server_refuted : exists (E : env) (cfg : config) (c : conn),
  used E (newConn cfg [] false []) c /\ cf_cookieProtector (cfg_init cfg) = None /\ cf_cookieProtector (c_cfg c) = Some 7.
Proof.
  set (cfg := mkCfg toy_name false 0 0 0 false true None None None false None None false [toy_cert] None [] [P256] [] [] (Some 1) [] false false None).
  exists toy_env, cfg, (fst (handshake toy_env 20 (toy_oracles 1 1) (newConn cfg [] false []))).
  split; [eapply used_more; [apply used_new|apply api_handshake]|]. split; vm_compute; reflexivity.
Qed.
Print Assumptions C55_server_refuted.
(** Full statement: the configuration of a connection in use is, once the handshake has begun, the initialised one. What
    holds: on a client only the cipher suites can differ, and then a single one is left; on a server only the cookie protector
    can differ, and only if a cookie is required, none was set and the connection is blocking. *)
Theorem C55_unchanged_partial : forall (E : env) (cfg : config) (psks : cache) (client : bool) (input : list rin) (c : conn),
  used E (newConn cfg psks client input) c ->
  c_cfg c = cfg \/ c_cfg c = cfg_init cfg \/
  (client = true /\ agree_but_suites (c_cfg c) (cfg_init cfg) /\ exists s, cf_cipherSuites (c_cfg c) = [s]) \/
  (client = false /\ agree_but_protector (c_cfg c) (cfg_init cfg) /\
   cf_requireCookie cfg = true /\ cf_cookieProtector cfg = None /\ cf_nonBlocking cfg = false /\ cf_cookieProtector (c_cfg c) <> None).
Proof. exact used_cfg. Qed.
Print Assumptions C55_unchanged_partial.
(** In particular a server that needs no cookie, or was given a protector, leaves the configuration alone. *)
Theorem C55_server_partial : forall (E : env) (cfg : config) (psks : cache) (input : list rin) (c : conn),
  used E (newConn cfg psks false input) c -> cf_requireCookie cfg = false \/ cf_cookieProtector cfg <> None ->
  c_cfg c = cfg \/ c_cfg c = cfg_init cfg.
Proof. exact used_server_cfg. Qed.
Print Assumptions C55_server_partial.
Example C55_case : let c := snd (fst hrr_run) in
  used toy_env (newConn cookie_config [] false []) c /\ is_connected c = true /\ cf_cookieProtector cookie_config <> None /\ c_cfg c = cfg_init cookie_config.
Proof.
  cbv zeta. split; [apply (used_joint 12 1 (pair_of toy_config cookie_config [] []))|]. split; [vm_compute; reflexivity|]. split; [discriminate|vm_compute; reflexivity].
Qed.
