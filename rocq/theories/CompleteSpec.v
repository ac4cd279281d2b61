(** Specification vocabulary for two ends that suit each other. *)
From Verif Require Import Base Frame Crypto CryptoSpec Messages MessageSpec Pki SigSpec Negotiation Machine Conn ConnSpec RunSpec SessionSpec.

(** ** What suits *)

(** A group for which an end makes keys, of the size that goes into a key share. *)
Definition makes_keys (Q : oracle -> Prop) (P : prims) (g : N) : Prop := u16_fits g = true /\
  forall o i, Q o -> exists pub priv, newKeyShare P (o_keys o i) g = Ok (pub, priv) /\ len pub = share_size g /\ 1 <= len pub.
(** A server that can use the client's keys for the group. *)
Definition agrees (Qc Qs : oracle -> Prop) (P : prims) (g : N) : Prop := forall puba priva pubb privb,
  own_key Qc P g puba priva -> own_key Qs P g pubb privb -> exists z, keyAgreement P g puba privb = Ok z.

(** A certificate for a name. *)
Definition serves (X : pki) (name : bytes) (c : keypair) : Prop := exists leaf rest, kp_chain c = leaf :: rest /\ In name (x_names X leaf).
(** A scheme of the kind of a key: RSA or ECDSA. Nothing else of the key counts in the choice of a scheme. *)
Definition same_kind (X : pki) (alg : N) (key : bytes) : Prop :=
  match x_privtype X key with
  | KRsa => In alg [0x0201; 0x0401; 0x0501; 0x0601; 0x0804; 0x0805; 0x0806]
  | KEcdsa _ => In alg [0x0403; 0x0503; 0x0603]
  | KOther => False
  end.
(** The first of the schemes that is of that kind. *)
Definition first_scheme (X : pki) (schemes : list N) (alg : N) (key : bytes) : Prop := exists before after,
  schemes = before ++ alg :: after /\ same_kind X alg key /\ Forall (fun a => ~ same_kind X a key) before.
(** A scheme that the key can sign with, with signatures that the certificate's key accepts. *)
Definition signs_with (Qs : oracle -> Prop) (X : pki) (alg : N) (c : keypair) : Prop := exists leaf rest s h,
  kp_chain c = leaf :: rest /\ x_pubtype X leaf = x_privtype X (kp_key c) /\ scheme_for alg (x_privtype X (kp_key c)) s h /\
  forall o d, Qs o -> exists sg, x_sign X (kp_key c) s h d (o_sig o) = Some sg /\ x_verify X leaf s h d sg = true /\ len sg <= 16359.
(** A chain that can be sent, and that the client accepts. *)
Definition sendable (X : pki) (c : keypair) : Prop :=
  Forall (fun cert => x_parses X cert = true /\ 1 <= len cert) (kp_chain c) /\ len (concat (kp_chain c)) + 5 * len (kp_chain c) <= 16359.
Definition believes (Qc : oracle -> Prop) (X : pki) (ccfg : config) (c : keypair) : Prop := forall o leaf rest, Qc o -> kp_chain c = leaf :: rest ->
  exists chains, (if cf_insecureSkipVerify ccfg then chains = []
                  else x_chain X (cf_rootCAs ccfg) (cf_serverName ccfg) (cfg_time o ccfg) leaf rest = Some chains) /\
    match cf_verifyPeerCertificate ccfg with Some h => o_verifyPeer o h (leaf :: rest) chains = true | None => True end.

(** A configuration whose ClientHello is not too long. *)
Record modest (c : config) : Prop := mkModest {
  md_name : 1 <= len (cf_serverName c) <= 16000;
  md_suites : Forall (fun s => u16_fits s = true) (cf_cipherSuites c) /\ (List.length (cf_cipherSuites c) <= 1000)%nat;
  md_groups : (List.length (cf_groups c) <= 16)%nat;
  md_schemes : Forall (fun s => u16_fits s = true) (cf_signatureSchemes c) /\ (List.length (cf_signatureSchemes c) <= 1000)%nat;
  md_protos : Forall (fun p => 1 <= len p <= 255) (cf_nextProtos c) /\ (List.length (cf_nextProtos c) <= 64)%nat;
  md_modes : Forall (fun m => m < 256) (cf_pskModes c) /\ (List.length (cf_pskModes c) <= 255)%nat }.

(** ** Compatible ends *)

(** A handshake by certificate of the server alone, without cookies. Lists left empty have their defaults. *)
Record compatible (Qc Qs : oracle -> Prop) (E : env) (ccfg scfg : config) (cpsks : cache) : Prop := mkCompat {
  cp_nopsk : cache_get (start_cache ccfg cpsks) (cf_serverName ccfg) = None;
  cp_nocookie : cf_requireCookie scfg = false; cp_noauth : cf_requireClientAuth scfg = false;
  cp_modest : modest (cfg_init ccfg);
  cp_crandom : forall o, Qc o -> exists b, o_random o = Some b /\ len b = 32;
  cp_srandom : forall o, Qs o -> exists b, o_random o = Some b /\ len b = 32 /\ b <> retry_random;
  cp_suite : exists s, In s (cf_cipherSuites (cfg_init ccfg)) /\ In s (cf_cipherSuites (cfg_init scfg));
  cp_suites : forall s, In s (cf_cipherSuites (cfg_init ccfg)) -> In s (cf_cipherSuites (cfg_init scfg)) -> cipherSuiteMap s <> None;
  cp_group : exists g, In g (cf_groups (cfg_init ccfg)) /\ In g (cf_groups (cfg_init scfg));
  cp_keys : forall g, In g (cf_groups (cfg_init ccfg)) -> makes_keys Qc (v_prims E) g;
  cp_shares : forall g, In g (cf_groups (cfg_init ccfg)) -> In g (cf_groups (cfg_init scfg)) -> makes_keys Qs (v_prims E) g /\ agrees Qc Qs (v_prims E) g;
  cp_chains : forall c, In c (cf_certificates scfg) -> kp_chain c <> [];
  cp_cert : exists c alg, In c (cf_certificates scfg) /\ serves (v_pki E) (cf_serverName ccfg) c /\ In alg (cf_signatureSchemes (cfg_init ccfg)) /\ same_kind (v_pki E) alg (kp_key c);
  cp_certs : forall c alg, In c (cf_certificates scfg) -> serves (v_pki E) (cf_serverName ccfg) c -> first_scheme (v_pki E) (cf_signatureSchemes (cfg_init ccfg)) alg (kp_key c) ->
    signs_with Qs (v_pki E) alg c /\ sendable (v_pki E) c /\ believes Qc (v_pki E) ccfg c }.

(** A call that does not fail; one that would block has not failed. *)
Definition unfailing {A} (r : res A) : Prop := forall e, r = Err e -> e = WouldBlock.
