(** What a client that completes has checked (properties C39 and C40). *)
From Verif Require Import Base Syntax Frame Record Handshake Crypto CryptoSpec PropCrypto Messages Pki SigSpec Negotiation Machine Client Server Conn ConnSpec ConnProofs RunSpec RunProofs SessionProofs SessionSpec ClientRun ClientSession Toy PropTrace PropConn Forge.

Lemma finished_verified Q E cfg psks input evs c : mac_sized (v_prims E) ->
  steady Q E (newConn cfg psks true input) evs c -> c_complete c = true ->
  exists before cookie shares hello shm flight fin after share es dh, let h := hash_of (v_prims E) (sc_suite (c_state c)) in
    evs = (before ++ [Sent hello; Received shm]) ++ flight ++ Received fin :: after /\
    offers cfg psks cookie shares hello /\ is_type shm 2 /\ is_type fin 20 /\
    client_early (v_prims E) (start_cache cfg psks) (cf_serverName cfg) h (p_usingPSK (sc_params (c_state c))) es /\
    client_dhe Q (v_prims E) h shares share dh /\
    hm_body fin = verify_data h (server_handshake_secret h es dh (transcript (rh_hash h) (before ++ [Sent hello; Received shm])))
                              (transcript (rh_hash h) ((before ++ [Sent hello; Received shm]) ++ flight)).
Proof.
  intros M S Cc. destruct (client_completed Q E cfg psks M input evs c S Cc) as (k & R & (Ep & _ & Es & _)). rewrite Ep, Es.
  destruct R as (hellos & cookie & shares & hello & shm & eem & flight & fin & last & finm & sh & n & share & exts & es & dh & Ev & _ & Of & T2 & _ & _ & _ & _ & _ & _ & Ce & Cd & _ & _ & _ & _ & _ & Tf & Bf & _).
  exists hellos, cookie, shares, hello, shm, flight, fin, (map Sent (last ++ [finm])), share, es, dh. cbv zeta. auto 12.
Qed.

(** ** C39 *)

(** A client that completes has received, after the server's hello and the rest of its flight, a Finished with the verify
    data of all messages before it under the server's handshake secret; that secret is derived as RFC 8446 says from the
    PSK, the key share and the hellos. *)
Theorem C39_finished : forall Q E cfg psks input evs c, mac_sized (v_prims E) ->
  steady Q E (newConn cfg psks true input) evs c -> c_complete c = true ->
  exists before cookie shares hello shm flight fin after share es dh, let h := hash_of (v_prims E) (sc_suite (c_state c)) in
    evs = (before ++ [Sent hello; Received shm]) ++ flight ++ Received fin :: after /\
    offers cfg psks cookie shares hello /\ is_type shm 2 /\ is_type fin 20 /\
    client_early (v_prims E) (start_cache cfg psks) (cf_serverName cfg) h (p_usingPSK (sc_params (c_state c))) es /\
    client_dhe Q (v_prims E) h shares share dh /\
    hm_body fin = verify_data h (server_handshake_secret h es dh (transcript (rh_hash h) (before ++ [Sent hello; Received shm])))
                              (transcript (rh_hash h) ((before ++ [Sent hello; Received shm]) ++ flight)).
Proof. exact finished_verified. Qed.
Print Assumptions C39_finished.

(** The whole of it: also the client's own Finished, the suite, and the secrets of the session that the connection uses. *)
Theorem C39_session : forall Q E cfg psks, mac_sized (v_prims E) -> forall input evs c,
  steady Q E (newConn cfg psks true input) evs c -> c_complete c = true ->
  exists k, client_run Q (v_prims E) (v_pki E) cfg psks evs k /\ same_session k (c_state c).
Proof. exact client_completed. Qed.
Print Assumptions C39_session.

(** Two full handshakes: with certificates, and with a HelloRetryRequest before. *)
Lemma full_complete : c_complete toy_client = true.
Proof. vm_compute. reflexivity. Qed.
Lemma hrr_complete : c_complete (fst (fst hrr_run)) = true.
Proof. vm_compute. reflexivity. Qed.
Example C39_example_full : mac_sized (v_prims toy_env) /\ steady toy_like toy_env (newConn toy_config [] true []) (fst full_events) toy_client /\ c_complete toy_client = true.
Proof. exact (conj toy_prims_sized (conj (proj1 full_steady) full_complete)). Qed.
Example C39_example_hrr : mac_sized (v_prims toy_env) /\ steady toy_like toy_env (newConn toy_config [] true []) (fst hrr_events) (fst (fst hrr_run)) /\ c_complete (fst (fst hrr_run)) = true.
Proof. exact (conj toy_prims_sized (conj (proj1 hrr_steady) hrr_complete)). Qed.

(** ** C40: an attacker without any key *)

(** The ClientHello in a first record. *)
Definition hello_of (out : bytes) : bytes := skipn 5 out.
Definition suite128 : suite := mkSuite TLS_AES_128_GCM_SHA256 SHA256 16 12.
Definition impostor_hello : body :=
  BServerHello (mkSh tls12Version (be 32 5) [] TLS_AES_128_GCM_SHA256 0
    [mkExt etSupportedVersions (of_res (versions_server_marshal [tls13Version]) []); mkExt etPreSharedKey (of_res (psk_server_marshal 0) [])]).
(** It answers with pre_shared_key and no key share, and derives all keys from nothing but the messages. *)
Definition impostor (out : bytes) : list rin :=
  let '(a, sh) := forge_send (forger false) impostor_hello in
  let t1 := hello_of out ++ hm_marshal sh in
  let '(_, shs, _) := handshake_secrets toy_prims suite128 [] (repeat x00 32) (digest toy_prims (s_hash suite128) t1) in
  let a := forge_actions a [RekeyOut EpochHandshakeData (makeTrafficKeys toy_prims suite128 shs)] in
  let '(a, ee) := forge_send a (BEncryptedExtensions []) in
  let t2 := t1 ++ hm_marshal ee in
  let fin := computeFinishedData toy_prims suite128 shs (digest toy_prims (s_hash suite128) t2) in
  let '(a, _) := forge_send a (BFinished (List.length fin) fin) in
  forged a.
Definition duped : conn := answered 1 4 1 impostor (newConn toy_config [] true []).

(** A client without any PSK, which verifies certificates, completes with a peer that has shown nothing. What the peer
    sends is computed from the ClientHello alone. The reason is that [usingPSK] is set by the server's pre_shared_key
    extension without looking whether the client has offered one (client-state-machine.go:457-459). *)
Definition dupe_events := solo_events 1 1 (newConn toy_config [] true []) ++ solo_events 4 301 duped.
Definition dupe : conn := fst (solo 4 301 duped).
Lemma dupe_fine : forallb fineb (snd (solo 1 1 (newConn toy_config [] true []))) = true /\ forallb fineb (snd (solo 4 301 duped)) = true.
Proof. split; vm_compute; reflexivity. Qed.
Lemma dupe_steady : steady toy_like toy_env (newConn toy_config [] true []) dupe_events dupe.
Proof. exact (steady_answered 1 4 1 impostor (newConn toy_config [] true []) (proj1 dupe_fine) (proj2 dupe_fine)). Qed.
Lemma received_types evs m : In (Received m) evs -> In (bN (hm_type m)) (map snd (filter (fun e => negb (fst e)) (types evs))).
Proof.
  intros Hi. change (bN (hm_type m)) with (snd (false, bN (hm_type m))). apply in_map, filter_In. split; [|reflexivity].
  unfold types. apply (in_map (fun e => match e with Sent m => (true, bN (hm_type m)) | Received m => (false, bN (hm_type m)) end) evs (Received m) Hi).
Qed.
Theorem C40_refuted : exists Q E cfg evs c, steady Q E (newConn cfg [] true []) evs c /\ c_complete c = true /\
  cf_insecureSkipVerify cfg = false /\ p_usingPSK (sc_params (c_state c)) = true /\
  (forall m, In (Received m) evs -> ~ is_type m 11 /\ ~ is_type m 15).
Proof.
  exists toy_like, toy_env, toy_config, dupe_events, dupe. split; [exact dupe_steady|].
  assert (map snd (filter (fun e => negb (fst e)) (types dupe_events)) = [2; 8; 20]) as Ty by (vm_compute; reflexivity).
  split; [vm_compute; reflexivity|]. split; [reflexivity|]. split; [vm_compute; reflexivity|].
  intros m Hi. pose proof (received_types _ _ Hi) as I0. rewrite Ty in I0. clear Ty Hi.
  unfold is_type. split; intros Tm; rewrite Tm in I0; destruct I0 as [I0|[I0|[I0|[]]]]; discriminate.
Qed.
Print Assumptions C40_refuted.

Lemma authenticated Q E cfg psks input evs c : mac_sized (v_prims E) ->
  steady Q E (newConn cfg psks true input) evs c -> c_complete c = true ->
  (p_usingPSK (sc_params (c_state c)) = true -> cache_get (start_cache cfg psks) (cf_serverName cfg) <> None) ->
  exists before flight after, evs = before ++ flight ++ after /\
   ((exists key s shares share dh fin after', let h := hash_of (v_prims E) (sc_suite (c_state c)) in
       let es := Early_Secret (hash_of (v_prims E) s) (psk_key key) in
       p_usingPSK (sc_params (c_state c)) = true /\ cache_get (start_cache cfg psks) (cf_serverName cfg) = Some key /\ cipherSuiteMap (psk_suite key) = Some s /\
       client_dhe Q (v_prims E) h shares share dh /\ after = Received fin :: after' /\ is_type fin 20 /\
       hm_body fin = verify_data h (server_handshake_secret h es dh (transcript (rh_hash h) before)) (transcript (rh_hash h) (before ++ flight))) \/
    (p_usingPSK (sc_params (c_state c)) = false /\
     server_certified Q (v_prims E) (v_pki E) cfg (sc_suite (c_state c)) before flight (sc_peer (c_state c)) (sc_chains (c_state c)))).
Proof.
  intros M S Cc. destruct (client_completed Q E cfg psks M input evs c S Cc) as (k & R & (Ep & _ & Es & _ & _ & Epeer & Ech)). rewrite Ep, Es, Epeer, Ech. intros Nz.
  destruct R as (hellos & cookie & shares & hello & shm & eem & flight & fin & last & finm & sh & n & share & exts & es & dh & Ev & _ & _ & _ & _ & _ & _ & _ & _ & _ & Ce & Cd & _ & _ & _ & _ & _ & Tf & Bf & _ & _ & _ & _ & Au).
  eexists _, flight, _. split; [exact Ev|]. destruct (p_usingPSK (sc_params k)).
  - left. specialize (Nz eq_refl). inversion Ce as [|key s G Sm|G]; subst; [|contradiction].
    exists key, s, shares, share, dh, fin, (map Sent (last ++ [finm])). cbv zeta. auto 10.
  - right. split; [reflexivity|exact Au].
Qed.
(** What is missing is only that case. A client that completes, if it has a PSK for the server when it uses one, has
    either used that PSK, from which the verified Finished is derived, or received a chain that its configuration accepts
    and a signature by the first certificate's key over the transcript, with a scheme for that key. *)
Theorem C40_partial : forall Q E cfg psks input evs c, mac_sized (v_prims E) ->
  steady Q E (newConn cfg psks true input) evs c -> c_complete c = true ->
  (p_usingPSK (sc_params (c_state c)) = true -> cache_get (start_cache cfg psks) (cf_serverName cfg) <> None) ->
  exists before flight after, evs = before ++ flight ++ after /\
   ((exists key s shares share dh fin after', let h := hash_of (v_prims E) (sc_suite (c_state c)) in
       let es := Early_Secret (hash_of (v_prims E) s) (psk_key key) in
       p_usingPSK (sc_params (c_state c)) = true /\ cache_get (start_cache cfg psks) (cf_serverName cfg) = Some key /\ cipherSuiteMap (psk_suite key) = Some s /\
       client_dhe Q (v_prims E) h shares share dh /\ after = Received fin :: after' /\ is_type fin 20 /\
       hm_body fin = verify_data h (server_handshake_secret h es dh (transcript (rh_hash h) before)) (transcript (rh_hash h) (before ++ flight))) \/
    (p_usingPSK (sc_params (c_state c)) = false /\
     server_certified Q (v_prims E) (v_pki E) cfg (sc_suite (c_state c)) before flight (sc_peer (c_state c)) (sc_chains (c_state c)))).
Proof. exact authenticated. Qed.
Print Assumptions C40_partial.

(** Both kinds: a handshake with certificates, and one with a PSK (which also sends early data). *)
Definition psk_run := joint 12 1 (pair_of psk_config psk_config client_psks server_psks).
Definition psk_events := joint_events 12 1 (pair_of psk_config psk_config client_psks server_psks).
Lemma psk_fine : forallb (fun r => fineb (fst r) && fineb (snd r)) (snd (joint 12 1 (pair_of psk_config psk_config client_psks server_psks))) = true.
Proof. vm_compute. reflexivity. Qed.
Lemma psk_steady : steady toy_like toy_env (newConn psk_config client_psks true []) (fst psk_events) (fst (fst psk_run)) /\ steady toy_like toy_env (newConn psk_config server_psks false []) (snd psk_events) (snd (fst psk_run)).
Proof. unfold psk_events, psk_run. exact (steady_pair 12 1 psk_config psk_config client_psks server_psks psk_fine). Qed.
Example C40_example_full : mac_sized (v_prims toy_env) /\ steady toy_like toy_env (newConn toy_config [] true []) (fst full_events) toy_client /\
  c_complete toy_client = true /\ p_usingPSK (sc_params (c_state toy_client)) = false.
Proof. refine (conj toy_prims_sized (conj (proj1 full_steady) (conj full_complete _))). vm_compute. reflexivity. Qed.
Example C40_example_psk : mac_sized (v_prims toy_env) /\ steady toy_like toy_env (newConn psk_config client_psks true []) (fst psk_events) (fst (fst psk_run)) /\
  (c_complete (fst (fst psk_run)), p_usingPSK (sc_params (c_state (fst (fst psk_run))))) = (true, true) /\ cache_get (start_cache psk_config client_psks) (cf_serverName psk_config) <> None.
Proof. refine (conj toy_prims_sized (conj (proj1 psk_steady) (conj _ _))); vm_compute; [reflexivity|discriminate]. Qed.
