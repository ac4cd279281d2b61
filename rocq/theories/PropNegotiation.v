(** Properties C24-C28, C58 and C59: negotiation. *)
From Verif Require Import Base Crypto CryptoSpec CryptoProofs Messages Pki Negotiation NegotiationSpec NegotiationProofs PropCrypto.

(** ** C24 *)

Theorem C24_first_common_suite :
  forall (offered supported : list N),
    (forall s, cipherSuiteNegotiation None offered supported = Ok s <-> first_where (fun s => In s supported) offered s) /\
    (is_err (cipherSuiteNegotiation None offered supported) <-> forall s, In s offered -> ~ In s supported).
Proof. exact (fun o s => conj (suite_none o s) (suite_none_err o s)). Qed.
Print Assumptions C24_first_common_suite.

Theorem C24_psk_suite :
  forall (p : psk) (offered supported : list N),
    (forall s, cipherSuiteNegotiation (Some p) offered supported = Ok s <-> s = psk_suite p /\ In s offered) /\
    (is_err (cipherSuiteNegotiation (Some p) offered supported) <-> ~ In (psk_suite p) offered).
Proof. exact (fun p o s => conj (suite_psk p o s) (suite_psk_err p o s)). Qed.
Print Assumptions C24_psk_suite.

(** With a PSK, the suite chosen can be one the server does not support. *)
Theorem C24_supported_with_psk_refuted :
  exists (p : psk) (offered supported : list N) (s : N),
    cipherSuiteNegotiation (Some p) offered supported = Ok s /\ In s offered /\ ~ In s supported.
Proof.
  exists (mkPsk 4865 true [] [] [] 0 0 0), [4866; 4865], [4866], 4865.
  split; [reflexivity|]. split; [right; now left|]. intros [H|[]]. discriminate.
Qed.
Print Assumptions C24_supported_with_psk_refuted.

Example C24_case :
  cipherSuiteNegotiation None [7; 4866; 4865] [4865; 4866] = Ok 4866 /\
  cipherSuiteNegotiation (Some (mkPsk 4865 true [] [] [] 0 0 0)) [7; 4866; 4865] [4865; 4866] = Ok 4865 /\
  is_err (cipherSuiteNegotiation None [7; 8] [4865; 4866]).
Proof. split; [reflexivity|]. split; [reflexivity|]. vm_compute. eexists. reflexivity. Qed.

(** ** C25 *)

Definition share_failed (P : prims) (rnd : nat -> keyrand) (s : kshare) (k : nat) : Prop :=
  is_err (newKeyShare P (rnd k) (ks_group s)) \/
  exists pub priv, newKeyShare P (rnd k) (ks_group s) = Ok (pub, priv) /\ is_err (keyAgreement P (ks_group s) (ks_data s) priv).

(** Whatever the outcomes of key generation, a share passed over in a supported group is one that failed. *)
Theorem C25_selected :
  forall (P : prims) (rnd : nat -> keyrand) (shares : list kshare) (groups : list N) (n : nat) (g : N) (pub z : bytes),
    dhNegotiation P rnd 0 shares groups = Ok (n, Some (g, pub, z)) ->
    exists pre share post k priv,
      shares = pre ++ share :: post /\ g = ks_group share /\ In g groups /\
      newKeyShare P (rnd k) g = Ok (pub, priv) /\ keyAgreement P g (ks_data share) priv = Ok z /\
      forall s, In s pre -> In (ks_group s) groups -> exists j, share_failed P rnd s j.
Proof. exact (fun P rnd shares groups => dh_some P rnd shares groups 0). Qed.
Print Assumptions C25_selected.
Theorem C25_none_selected :
  forall (P : prims) (rnd : nat -> keyrand) (shares : list kshare) (groups : list N) (n : nat),
    dhNegotiation P rnd 0 shares groups = Ok (n, None) ->
    forall s, In s shares -> In (ks_group s) groups -> exists j, share_failed P rnd s j.
Proof. exact (fun P rnd shares groups => dh_none P rnd shares groups 0). Qed.
Print Assumptions C25_none_selected.
(** If no share fails, the group is that of the first share the server supports, and none is selected only if there is none. *)
Theorem C25_first_supported :
  forall (P : prims) (rnd : nat -> keyrand) (shares : list kshare) (groups : list N),
    (forall s k, In s shares -> In (ks_group s) groups -> ~ share_failed P rnd s k) ->
    (forall n g pub z, dhNegotiation P rnd 0 shares groups = Ok (n, Some (g, pub, z)) ->
       exists share k priv, first_where (fun s => In (ks_group s) groups) shares share /\ g = ks_group share /\
         newKeyShare P (rnd k) g = Ok (pub, priv) /\ keyAgreement P g (ks_data share) priv = Ok z) /\
    (forall n, dhNegotiation P rnd 0 shares groups = Ok (n, None) -> forall s, In s shares -> ~ In (ks_group s) groups).
Proof. exact (fun P rnd shares groups HF => conj (fun n g pub z => dh_first P rnd shares groups 0 n g pub z HF) (fun n => dh_none_first P rnd shares groups 0 n HF)). Qed.
Print Assumptions C25_first_supported.
Theorem C25_curve_shares_do_not_fail :
  forall (P : prims) (rnd : nat -> keyrand) (s : kshare) (k : nat),
    In (ks_group s) [P256; P384; P521; X25519] -> List.length (ks_data s) = keyExchangeSize (ks_group s) -> kr_curve (rnd k) <> None ->
    ~ share_failed P rnd s k.
Proof. exact curve_share_usable. Qed.
Print Assumptions C25_curve_shares_do_not_fail.

(** The first share is for a group the server lacks, the second is of the wrong size, the third is used. *)
Example C25_case :
  let rnd n := mkKr (Some [b8 (N.of_nat n); x05]) [] in
  let shares := [mkKs 30 [x01]; mkKs X25519 [x01]; mkKs P256 (toy_public P256 [x09])] in
  dhNegotiation toy_prims rnd 0 shares [P256; X25519] = Ok (2%nat, Some (P256, toy_public P256 [x01; x05], be 32 (27 * 261))) /\
  dhNegotiation toy_prims rnd 0 shares [P384] = Ok (0%nat, None).
Proof. split; vm_compute; reflexivity. Qed.
Example C25_case_first :
  let rnd n := mkKr (Some [b8 (N.of_nat n); x05]) [] in
  let shares := [mkKs 30 [x01]; mkKs P256 (toy_public P256 [x09])] in
  (forall s k, In s shares -> In (ks_group s) [P256; X25519] -> ~ share_failed toy_prims rnd s k) /\
  is_ok (dhNegotiation toy_prims rnd 0 shares [P256; X25519]).
Proof.
  split; [|vm_compute; eexists; reflexivity]. intros s k Hs Hg. apply curve_share_usable; [| |discriminate].
  - destruct Hg as [<-|[<-|[]]]; [now left|right; right; right; now left].
  - destruct Hs as [<-|[<-|[]]]; [destruct Hg as [H|[H|[]]]; discriminate|vm_compute; reflexivity].
Qed.

(** ** C26 *)

Theorem C26_psk_binder :
  forall (P : prims) (now : Z) (get : bytes -> option psk) (ids : list pskid) (binders : list bytes) (context : bytes) (j : nat) (p : psk) (params : suite),
    mac_sized P ->
    pskNegotiation P now get 0 ids binders context = Ok (Some (j, p, params)) ->
    exists id b, nth_error ids j = Some id /\ nth_error binders j = Some b /\
      get (hexEncode (pi_identity id)) = Some p /\ cipherSuiteMap (psk_suite p) = Some params /\
      b = binder8446 (digest P (s_hash params)) (hmac P (s_hash params)) (hsize (s_hash params)) (psk_isResumption p) (psk_key p) context /\
      (psk_isResumption p = true -> pi_age id < 2 ^ 32 -> psk_ageAdd p < 2 ^ 32 -> (0 <= real_age now (psk_receivedAt p) < 2 ^ 32)%Z ->
       (Z.abs (real_age now (psk_receivedAt p) - claimed_age (pi_age id) (psk_ageAdd p)) <= 5000)%Z) /\
      forall k id', (k < j)%nat -> nth_error ids k = Some id' -> get (hexEncode (pi_identity id')) = None.
Proof. exact psk_accept. Qed.
Print Assumptions C26_psk_binder.

(** A ticket over 49 days old passes the age check, the age being taken modulo 2^32 milliseconds. *)
Theorem C26_age_wraps_refuted :
  exists (now : Z) (p : psk) (ids : list pskid) (binders : list bytes),
    psk_isResumption p = true /\ (real_age now (psk_receivedAt p) > 2 ^ 32)%Z /\
    Forall (fun id => claimed_age (pi_age id) (psk_ageAdd p) = 0%Z) ids /\
    pskNegotiation toy_prims now (fun _ => Some p) 0 ids binders (str "hello") = Ok (Some (0%nat, p, mkSuite 4865 SHA256 16 12)).
Proof.
  exists ((2 ^ 32 + 3000) * 1000000)%Z, (mkPsk 4865 true (str "id") (str "key") [] 0 0 17), [mkPid (str "id") 17],
    [binderOf toy_prims (mkSuite 4865 SHA256 16 12) (mkPsk 4865 true (str "id") (str "key") [] 0 0 17) (str "hello")].
  split; [reflexivity|]. split; [vm_compute; reflexivity|]. split.
  - apply Forall_cons; [reflexivity|apply Forall_nil].
  - vm_compute. reflexivity.
Qed.
Print Assumptions C26_age_wraps_refuted.

(** The second identity is known, and its binder is right. *)
Definition c26_psk : psk := mkPsk 4865 true (str "id") (str "key") [] 7000000000 9000000000 17.
Definition c26_get (k : bytes) : option psk := if beqb k (hexEncode (str "id")) then Some c26_psk else None.
Example C26_case :
  mac_sized toy_prims /\
  let b := binder8446 (toy_digest SHA256) (toy_hmac SHA256) 32 true (str "key") (str "hello") in
  pskNegotiation toy_prims 12000000000 c26_get 0 [mkPid (str "no") 3; mkPid (str "id") 1017] [str "x"; b] (str "hello") = Ok (Some (1%nat, c26_psk, mkSuite 4865 SHA256 16 12)) /\
  is_err (pskNegotiation toy_prims 12000000000 c26_get 0 [mkPid (str "no") 3; mkPid (str "id") 1017] [b; str "x"] (str "hello")) /\
  is_err (pskNegotiation toy_prims 12001000000 c26_get 0 [mkPid (str "no") 3; mkPid (str "id") 17] [str "x"; b] (str "hello")).
Proof.
  split; [exact toy_prims_sized|]. cbv zeta.
  assert (E : binder8446 (toy_digest SHA256) (toy_hmac SHA256) 32 true (str "key") (str "hello") = binderOf toy_prims (mkSuite 4865 SHA256 16 12) c26_psk (str "hello"))
    by (symmetry; exact (binder_rfc toy_prims (mkSuite 4865 SHA256 16 12) c26_psk (str "hello") toy_prims_sized)).
  rewrite E.
  split; [vm_compute; reflexivity|]. split; vm_compute; eexists; reflexivity.
Qed.

(** ** C27 *)

Theorem C27_first_common_protocol :
  forall (offered supported : list bytes),
    (exists s, first_where (fun s => In s supported) offered s /\ alpnNegotiation None offered supported = Ok s) \/
    ((forall s, In s offered -> ~ In s supported) /\ alpnNegotiation None offered supported = Ok []).
Proof. exact alpn_none. Qed.
Print Assumptions C27_first_common_protocol.
(** With a PSK its protocol is selected if the client offers it and the server still supports it. Otherwise a
    resumption PSK fails if the client offers protocols at all. *)
Theorem C27_psk_protocol :
  forall (p : psk) (offered supported : list bytes),
    (In (psk_nextProto p) offered /\ In (psk_nextProto p) supported -> alpnNegotiation (Some p) offered supported = Ok (psk_nextProto p)) /\
    (~ (In (psk_nextProto p) offered /\ In (psk_nextProto p) supported) ->
     if psk_isResumption p then (offered <> [] -> is_err (alpnNegotiation (Some p) offered supported)) /\ (offered = [] -> alpnNegotiation (Some p) offered supported = Ok [])
     else alpnNegotiation (Some p) offered supported = Ok []).
Proof. exact alpn_psk. Qed.
Print Assumptions C27_psk_protocol.

Example C27_case :
  alpnNegotiation None [str "a"; str "h2"; str "h1"] [str "h1"; str "h2"] = Ok (str "h2") /\
  alpnNegotiation (Some (mkPsk 4865 true [] [] (str "h1") 0 0 0)) [str "a"; str "h2"; str "h1"] [str "h1"; str "h2"] = Ok (str "h1") /\
  is_err (alpnNegotiation (Some (mkPsk 4865 true [] [] (str "x") 0 0 0)) [str "h2"] [str "h2"]).
Proof. split; [reflexivity|]. split; [reflexivity|]. vm_compute. eexists. reflexivity. Qed.

(** ** C28 *)

(** The expiry time of a PSK is never looked at: any accepted PSK is accepted as well with any other expiry time. *)
Theorem C28_expiry_refuted :
  exists (now : Z) (p : psk) (ids : list pskid) (binders : list bytes),
    psk_isResumption p = true /\ (psk_expiresAt p < now)%Z /\
    pskNegotiation toy_prims now (fun k => if beqb k (hexEncode (psk_identity p)) then Some p else None) 0 ids binders (str "hello") = Ok (Some (0%nat, p, mkSuite 4865 SHA256 16 12)).
Proof.
  exists 12000000000%Z, c26_psk, [mkPid (str "id") 5017], [binderOf toy_prims (mkSuite 4865 SHA256 16 12) c26_psk (str "hello")].
  split; [reflexivity|]. split; vm_compute; reflexivity.
Qed.
Print Assumptions C28_expiry_refuted.

(** ** C58: PSK modes and early data *)

Theorem C58_psk_modes :
  forall (canDoDH canDoPSK : bool) (modes : list N),
    let (usingDH, usingPSK) := pskModeNegotiation canDoDH canDoPSK modes in
    (usingPSK = true <-> canDoPSK = true /\ modes <> [] /\ ((exists m, In m modes /\ m <> 1) \/ canDoDH = true)) /\
    (usingDH = true <-> canDoDH = true /\ (In 1 modes \/ usingPSK = false)).
Proof. exact (fun d p m => conj (modes_psk d p m) (modes_dh d p m)). Qed.
Print Assumptions C58_psk_modes.
Theorem C58_early_data :
  forall (usingPSK got allow : bool),
    let (used, rejected) := earlyDataNegotiation usingPSK got allow in
    (used = true <-> usingPSK = true /\ got = true /\ allow = true) /\
    (rejected = true <-> got = true /\ used = false).
Proof. intros [|] [|] [|]; vm_compute; intuition discriminate. Qed.
Print Assumptions C58_early_data.
Example C58_case :
  pskModeNegotiation true true [0] = (false, true) /\ pskModeNegotiation true true [0; 1] = (true, true) /\
  pskModeNegotiation false true [1] = (false, false) /\ pskModeNegotiation true true [] = (true, false).
Proof. repeat split. Qed.

(** ** C59: certificates *)

Theorem C59_certificate :
  forall (X : pki) (name : option bytes) (schemes : list N) (certs : list keypair) (c : keypair) (s : N),
    certificateSelection X name schemes certs = Ok (c, s) ->
    In c certs /\ In s schemes /\ schemeValidForKey X s (kp_key c) = true /\
    match name with None => True | Some name => name <> [] /\ exists leaf rest, kp_chain c = leaf :: rest /\ In name (x_names X leaf) end.
Proof. exact selection_ok. Qed.
Print Assumptions C59_certificate.
(** A certificate lists its name as its own encoding; keys that start with [x01] are RSA keys. *)
Definition toy_pki : pki :=
  mkPki (fun b => (0 <? List.length b)%nat) (fun c => [c]) (fun c => if beqb (firstn 1 c) [x01] then KRsa else KEcdsa P256)
    (fun k => if beqb (firstn 1 k) [x01] then KRsa else KEcdsa P256)
    (fun key a h d r => Some (key ++ d)) (fun cert a h d sg => beqb sg (cert ++ d))
    (fun roots name now cert inter => if match roots with Some l => existsb (beqb cert) l | None => true end then Some [[cert]] else None).
Example C59_case :
  certificateSelection toy_pki (Some (str "b")) [RSA_PSS_SHA256; ECDSA_P256_SHA256] [mkKp [str "a"] [x01]; mkKp [str "b"] [x02]] = Ok (mkKp [str "b"] [x02], ECDSA_P256_SHA256) /\
  is_err (certificateSelection toy_pki (Some (str "b")) [RSA_PSS_SHA256] [mkKp [str "a"] [x01]; mkKp [str "b"] [x02]]).
Proof. split; [reflexivity|]. vm_compute. eexists. reflexivity. Qed.
