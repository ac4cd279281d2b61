(** Property C60: what CertificateVerify signs. *)
From Verif Require Import Base Handshake Crypto Messages Pki SigSpec SigProofs Negotiation Machine Client Conn PropNegotiation PropCrypto Toy.

(** The server's signature input is that of RFC 8446 section 4.4.3, and determines the transcript hash. *)
Theorem C60_content : forall hh, encodeSignatureInput hh = signed_content server_context hh /\
  (forall hh', encodeSignatureInput hh = encodeSignatureInput hh' -> hh = hh').
Proof. intros hh. split; [exact (content_server hh)|]. exact (content_inj server_context hh). Qed.
Print Assumptions C60_content.
Example C60_content_case : List.length (encodeSignatureInput (repeat x07 32)) = 130%nat /\ nth 64 (encodeSignatureInput []) x00 = x54.
Proof. split; reflexivity. Qed.

(** Verification accepts exactly the valid signatures under a scheme in use for the certificate's key. *)
Theorem C60_verify : forall P X cv cert hh,
  cv_verify P X cv cert hh = Ok tt <-> valid_signature P X (cv_alg cv) cert (signed_content server_context hh) (cv_sig cv).
Proof. exact cv_verify_iff. Qed.
Print Assumptions C60_verify.
(** Signing uses a scheme in use for the private key, over the same content. *)
Theorem C60_sign : forall P X alg key hh rnd cv, cv_sign P X alg key hh rnd = Ok cv <->
  cv_alg cv = alg /\ exists s h, scheme_for alg (x_privtype X key) s h /\ x_sign X key s h (digest P h (signed_content server_context hh)) rnd = Some (cv_sig cv).
Proof. exact cv_sign_ok. Qed.
Print Assumptions C60_sign.
(** What a working key pair signs, its certificate verifies. *)
Theorem C60_sign_verify : forall P X alg key cert hh rnd cv, pair_works X cert key -> cv_sign P X alg key hh rnd = Ok cv -> cv_verify P X cv cert hh = Ok tt.
Proof. exact sign_verifies. Qed.
Print Assumptions C60_sign_verify.
Example C60_case : pair_works toy_pki toy_name toy_name /\
  exists cv, cv_sign toy_prims toy_pki 0x0403 toy_name (repeat x07 32) [] = Ok cv /\ cv_verify toy_prims toy_pki cv toy_name (repeat x07 32) = Ok tt /\
    is_err (cv_verify toy_prims toy_pki cv toy_name (repeat x08 32)) /\ is_err (cv_verify toy_prims toy_pki (mkCv 0x0201 (cv_sig cv)) toy_name (repeat x07 32)).
Proof.
  split; [split; [reflexivity|]; intros s h d rnd sg [= <-]; apply beqb_refl|].
  eexists. split; [vm_compute; reflexivity|]. split; [vm_compute; reflexivity|]. split; vm_compute; eexists; reflexivity.
Qed.

(** Full statement for clients: their signature covers [signed_content client_context]. The code uses the server's
    string for both: what a client signs is not a signature over the client's content. *)
Definition auth_request : certRequest := mkCr [] [mkExt etSignatureAlgorithms [x00; x02; x04; x03]].
Definition auth_keys : ckeys := mkCk (set_clientAuth no_params) (mkSuite TLS_AES_128_GCM_SHA256 SHA256 16 12) [] [] [].
Definition auth_world : world := set_hash (c_world (newConn toy_config [] true [])) (str "transcript").
Definition auth_run := client_auth toy_prims toy_pki (toy_oracle 1) auth_world auth_keys [toy_cert] (Some auth_request).
Definition auth_sent (i : nat) : hmsg := match snd auth_run with Ok l => match nth_error l i with Some (QueueHandshakeMessage m) => m | _ => message_hash [] end | _ => message_hash [] end.
Theorem C60_client_refuted : exists P X o w k certs cr w' certm cvm alg sg leaf,
  client_auth P X o w k certs cr = (w', Ok [QueueHandshakeMessage certm; QueueHandshakeMessage cvm]) /\
  hm_type cvm = b8 15 /\ cv_marshal (mkCv alg sg) = Ok (hm_body cvm) /\ map kp_chain certs = [[leaf]] /\
  ~ valid_signature P X alg leaf (signed_content client_context (digest P (s_hash (ck_suite k)) (w_hash w ++ hm_marshal certm))) sg.
Proof.
  exists toy_prims, toy_pki, (toy_oracle 1), auth_world, auth_keys, [toy_cert], (Some auth_request), (fst auth_run), (auth_sent 0), (auth_sent 1),
    0x0403, (skipn 4 (hm_body (auth_sent 1))), toy_name.
  split; [vm_compute; reflexivity|]. split; [vm_compute; reflexivity|]. split; [vm_compute; reflexivity|]. split; [reflexivity|].
  intros (s & h & F & V). inversion F; subst. vm_compute in V. discriminate V.
Qed.
Print Assumptions C60_client_refuted.

(** RFC 8446 section 4.2.3 forbids PKCS#1 signatures in CertificateVerify; the code accepts them ([allowPKCS1], common.go:18). *)
Theorem C60_pkcs1_refuted : exists P X alg cert hh sg h,
  scheme_for alg (x_pubtype X cert) SigPKCS1 h /\ cv_verify P X (mkCv alg sg) cert hh = Ok tt.
Proof.
  exists toy_prims, toy_pki, 0x0401, [x01], (repeat x07 32), ([x01] ++ digest toy_prims SHA256 (signed_content server_context (repeat x07 32))), SHA256.
  split; [constructor|]. vm_compute. reflexivity.
Qed.
Print Assumptions C60_pkcs1_refuted.
