(** C45: what a peer can do to crash a handshake. *)
From Verif Require Import Base Syntax Frame Record RecordSpec PropRecord Timer Handshake HandshakeProofs Crypto PropCrypto Messages Pki Negotiation PropNegotiation Machine Cookie Client Server Conn ConnSpec RunSpec Toy PropTrace Forge.

(** ** Witnesses *)

(** The first record that carries some bytes, unprotected. *)
Definition clear_record (ty : byte) (d : bytes) : list rin := [RBytes ([ty] ++ be 2 tls10Version ++ be 2 (len d) ++ d)].
Definition called (n : nat) (c : conn) : conn := fst (solo n 1 c).
Lemma used_solo n : forall seed c c0, used toy_env c0 c -> used toy_env c0 (fst (solo n seed c)).
Proof.
  induction n as [|n IH]; intros seed c c0 U; [exact U|]. cbn [solo]. pose proof (api_handshake toy_env 20 (toy_oracles seed 2) c) as A.
  destruct (handshake toy_env 20 (toy_oracles seed 2) c) as [c1 r]. cbn [fst] in A. specialize (IH (seed + 10) c1 c0 (used_more _ _ _ _ U A)).
  destruct (solo n (seed + 10) c1) as [c2 rs]. exact IH.
Qed.
Definition suite128 : suite := mkSuite TLS_AES_128_GCM_SHA256 SHA256 16 12.
Definition forged_hello : body :=
  BServerHello (mkSh tls12Version (be 32 5) [] TLS_AES_128_GCM_SHA256 0 [mkExt etSupportedVersions (of_res (versions_server_marshal [tls13Version]) [])]).
(** A server whose Certificate is empty. It needs no key exchange. *)
Definition no_certificate (out : bytes) : list rin :=
  let '(a, sh) := forge_send (forger false) forged_hello in
  let t1 := skipn 5 out ++ hm_marshal sh in
  let '(_, shs, _) := handshake_secrets toy_prims suite128 (hkdfExtract toy_prims SHA256 (Some (repeat x00 32)) (repeat x00 32)) (repeat x00 32)
                        (digest toy_prims (s_hash suite128) t1) in
  let a := forge_actions a [RekeyOut EpochHandshakeData (makeTrafficKeys toy_prims suite128 shs)] in
  let '(a, _) := forge_send a (BEncryptedExtensions []) in
  let '(a, _) := forge_send a (BCertificate (mkCert [] [])) in
  let '(a, _) := forge_send a (BCertificateVerify (mkCv ECDSA_P256_SHA256 [])) in
  forged a.
Definition crash1 : conn := fst (solo 3 301 (answered 1 4 1 no_certificate (newConn toy_config [] true []))).
(** A ClientHello with a cookie for a server that has not asked for one and has no cookie protector. *)
Definition cookie_hello : list rin :=
  let exts := [mkExt etSupportedVersions (of_res (versions_client_marshal [tls13Version]) []); mkExt etCookie (of_res (cookie_marshal [x01]) [])] in
  let '(a, _) := forge_send (forger true) (BClientHello (mkCh tls12Version (be 32 5) [] [TLS_AES_128_GCM_SHA256] exts)) in forged a.
Definition crash2 : conn := arrives (called 1 (newConn toy_config [] false [])) cookie_hello.
(** A ClientHello with a share that is not on the curve. *)
Definition bad_share_hello : list rin :=
  let exts := [mkExt etSupportedVersions (of_res (versions_client_marshal [tls13Version]) []);
               mkExt etKeyShare (of_res (ks_client_marshal [mkKs P256 (be 65 3)]) [])] in
  let '(a, _) := forge_send (forger true) (BClientHello (mkCh tls12Version (be 32 5) [] [TLS_AES_128_GCM_SHA256] exts)) in forged a.
Definition crash3 : conn := arrives (called 1 (newConn toy_config [] false [])) bad_share_hello.
(** An alert of one byte. *)
Definition crash4 (client : bool) : conn := arrives (called 1 (newConn toy_config [] client [])) (clear_record rtAlert [x02]).
(** A protected record of zeros only, in the server's first flight. *)
Definition zero_record (out : bytes) : list rin :=
  let '(a, sh) := forge_send (forger false) forged_hello in
  let t1 := skipn 5 out ++ hm_marshal sh in
  let '(_, shs, _) := handshake_secrets toy_prims suite128 (hkdfExtract toy_prims SHA256 (Some (repeat x00 32)) (repeat x00 32)) (repeat x00 32)
                        (digest toy_prims (s_hash suite128) t1) in
  let a := forge_actions a [RekeyOut EpochHandshakeData (makeTrafficKeys toy_prims suite128 shs)] in
  let a := upd_out a (fst (writeRecord (c_out a) (mkPt x00 0 0 [x00]))) in
  forged a.
Definition crash5 : conn := fst (solo 1 301 (answered 1 4 1 zero_record (newConn toy_config [] true []))).

(** ** Crashes *)

(** What the peer has to do before the crash: nothing but deliver records. *)
Definition fed (client : bool) (c : conn) : Prop := used toy_env (newConn toy_config [] client []) c.
Lemma fed_new client : fed client (newConn toy_config [] client []).
Proof. constructor. Qed.
Lemma fed_arrives client c d : fed client c -> fed client (arrives c d).
Proof. intros H. eapply used_more; [exact H|apply api_input]. Qed.
Lemma fed_solo client n seed c : fed client c -> fed client (fst (solo n seed c)).
Proof. apply used_solo. Qed.
Lemma fed_answered client n m seed a c : fed client c -> fed client (answered n m seed a c).
Proof. intros H. unfold answered. apply fed_arrives. now apply fed_solo. Qed.

(** Some valid configuration and some peer for which a call of [Handshake] panics in a state like [Q]. *)
Definition crashes (client : bool) (Q : conn -> Prop) : Prop :=
  exists E cfg c fuel os,
    (if client then validForClient cfg else validForServer cfg []) = true /\ cf_useDTLS cfg = false /\
    used E (newConn cfg [] client []) c /\ Q c /\ snd (handshake E fuel os c) = Panic.
Definition waiting (s : hstate -> Prop) (c : conn) : Prop := match c_hState c with Some s' => s s' | None => False end.
Definition in_start (s : hstate) : Prop := match s with SStart => True | _ => False end.
Definition no_cert (s : hstate) : Prop := match s with CWaitCV _ cert _ => ct_list cert = [] | _ => False end.
(** The first record in the input of a connection is an unprotected alert shorter than an alert. *)
Definition short_alert (c : conn) : Prop :=
  exists d rest, l_in (c_in c) = RBytes ([x15; x03; x01] ++ be 2 (len d) ++ d) :: rest /\ len d < 2.

(** The input of a server is one record with a ClientHello that has an extension of type [t] with contents like [Q]. *)
Definition hello_with (t : N) (Q : bytes -> Prop) (c : conn) : Prop :=
  exists b ch n e, l_in (c_in c) = [RBytes ([x16; x03; x01] ++ be 2 (4 + len b) ++ [x01] ++ be 3 (len b) ++ b)] /\
    ch_unmarshal 0 b = Ok (ch, n) /\ In e (ch_exts ch) /\ e_type e = t /\ Q (e_data e).
(** The next record opens under the current key, and to nothing but zeros. *)
Definition opens_to_zeros (c : conn) : Prop :=
  exists k nonce hd frag p,
    c_aead (cur (l_core (c_in c))) = Some k /\ computeNonce (c_iv (cur (l_core (c_in c)))) (c_seq (cur (l_core (c_in c)))) = Ok nonce /\
    rl_data (c_in c) = hd ++ frag /\ List.length hd = 5%nat /\ open k nonce hd frag = Some p /\ Forall (eq x00) p.
Definition zerosb (c : conn) : bool :=
  match c_aead (cur (l_core (c_in c))) with
  | Some k =>
      match computeNonce (c_iv (cur (l_core (c_in c)))) (c_seq (cur (l_core (c_in c)))) with
      | Ok nonce =>
          match open k nonce (firstn 5 (rl_data (c_in c))) (skipn 5 (rl_data (c_in c))) with
          | Some p => (List.length (firstn 5 (rl_data (c_in c))) =? 5)%nat && forallb (Byte.eqb x00) p
          | None => false
          end
      | _ => false
      end
  | None => false
  end.
Lemma zerosb_ok c : zerosb c = true -> opens_to_zeros c.
Proof.
  unfold zerosb. destruct (c_aead _) as [k|] eqn:K; [|discriminate]. destruct (computeNonce _ _) as [nonce|e| |] eqn:N; try discriminate.
  destruct (open _ _ _ _) as [p|] eqn:O; [|discriminate]. intros H. apply andb_prop in H. destruct H as [L F].
  exists k, nonce, (firstn 5 (rl_data (c_in c))), (skipn 5 (rl_data (c_in c))), p. do 2 (split; [assumption|]).
  split; [symmetry; apply firstn_skipn|]. split; [now apply Nat.eqb_eq|]. split; [exact O|].
  apply Forall_forall. intros b Hb. rewrite forallb_forall in F. now apply byte_eqb_eq, F.
Qed.

Definition panics {A} (r : res A) : bool := match r with Panic => true | _ => false end.
Lemma panics_ok {A} (r : res A) : panics r = true -> r = Panic.
Proof. destruct r; try discriminate. reflexivity. Qed.
Lemma crashes_by (client : bool) (Q : conn -> Prop) c : (if client then validForClient toy_config else validForServer toy_config []) = true ->
  fed client c -> Q c -> panics (snd (handshake toy_env 20 (toy_oracles 301 2) c)) = true -> crashes client Q.
Proof.
  intros V F H K. exists toy_env, toy_config, c, 20%nat, (toy_oracles 301 2). split; [exact V|]. split; [reflexivity|]. split; [exact F|].
  split; [exact H|now apply panics_ok].
Qed.

Lemma crash1_q : match c_hState crash1 with Some (CWaitCV _ cert _) => match ct_list cert with [] => true | _ => false end | _ => false end = true.
Proof. vm_compute. reflexivity. Qed.
Lemma crash1_panics : panics (snd (handshake toy_env 20 (toy_oracles 301 2) crash1)) = true.
Proof. vm_compute. reflexivity. Qed.
(** A server that sends an empty Certificate and then any CertificateVerify. *)
Theorem C45_empty_certificate_refuted : crashes true (waiting no_cert).
Proof.
  apply (crashes_by true _ crash1); [reflexivity|apply fed_solo, fed_answered, fed_new| |exact crash1_panics].
  generalize crash1_q. unfold waiting. destruct (c_hState crash1) as [s|]; [|discriminate]. destruct s; try discriminate.
  cbn [no_cert]. now destruct (ct_list cert).
Qed.
Print Assumptions C45_empty_certificate_refuted.

Definition in_startb (c : conn) : bool := match c_hState c with Some SStart => true | _ => false end.
Lemma in_startb_ok c : in_startb c = true -> waiting in_start c.
Proof. unfold in_startb, waiting. destruct (c_hState c) as [s|]; [|discriminate]. destruct s; try discriminate. intros. exact I. Qed.
Definition hello_body (l : list rin) : bytes := match l with [RBytes d] => skipn 9 d | _ => [] end.
Definition hello_exts (l : list rin) : list ext := match ch_unmarshal 0 (hello_body l) with Ok (ch, _) => ch_exts ch | _ => [] end.
Lemma hello_with_by t (Q : bytes -> Prop) c e : l_in (c_in c) = [RBytes ([x16; x03; x01] ++ be 2 (4 + len (hello_body (l_in (c_in c)))) ++ [x01] ++ be 3 (len (hello_body (l_in (c_in c)))) ++ hello_body (l_in (c_in c)))] ->
  In e (hello_exts (l_in (c_in c))) -> e_type e = t -> Q (e_data e) -> hello_with t Q c.
Proof.
  intros H I T HQ. unfold hello_exts in I. destruct (ch_unmarshal 0 _) as [[ch n]|x| |] eqn:U; try contradiction.
  exists (hello_body (l_in (c_in c))), ch, n, e. auto.
Qed.

(** A client that sends a cookie to a server that has not asked for one: the missing protector is called. *)
Theorem C45_cookie_refuted : crashes false (fun c => waiting in_start c /\ cf_cookieProtector (w_cfg (c_world c)) = None /\ hello_with etCookie (fun _ => True) c).
Proof.
  apply (crashes_by false _ crash2); [reflexivity|apply fed_arrives; unfold called; apply fed_solo, fed_new| |vm_compute; reflexivity].
  split; [apply in_startb_ok; vm_compute; reflexivity|]. split; [vm_compute; reflexivity|].
  eapply (hello_with_by _ _ _ (mkExt etCookie [x00; x01; x01])); [vm_compute; reflexivity| |reflexivity|exact I].
  vm_compute. right. left. reflexivity.
Qed.
Print Assumptions C45_cookie_refuted.

(** A client with a share that is no point of the curve: crypto/elliptic's result is used as it is. *)
Theorem C45_share_refuted : crashes false (fun c => waiting in_start c /\
  hello_with etKeyShare (fun d => exists s n, ks_client_unmarshal d = Ok ([s], n) /\ ks_group s = P256 /\ List.length (ks_data s) = 65%nat) c).
Proof.
  apply (crashes_by false _ crash3); [reflexivity|apply fed_arrives; unfold called; apply fed_solo, fed_new| |vm_compute; reflexivity].
  split; [apply in_startb_ok; vm_compute; reflexivity|].
  eapply (hello_with_by _ _ _ (mkExt etKeyShare (of_res (ks_client_marshal [mkKs P256 (be 65 3)]) []))); [vm_compute; reflexivity| |reflexivity|].
  - vm_compute. right. left. reflexivity.
  - exists (mkKs P256 (be 65 3)), 71%nat. split; [vm_compute; reflexivity|]. split; [reflexivity|vm_compute; reflexivity].
Qed.
Print Assumptions C45_share_refuted.

(** Either side, when an alert record has less than two bytes. *)
Theorem C45_alert_refuted client : crashes client short_alert.
Proof.
  apply (crashes_by client _ (crash4 client)).
  - destruct client; reflexivity.
  - apply fed_arrives. unfold called. apply fed_solo, fed_new.
  - exists [x02], []. split; [|reflexivity]. destruct client; vm_compute; reflexivity.
  - destruct client; vm_compute; reflexivity.
Qed.
Print Assumptions C45_alert_refuted.

(** A peer that protects a record of zeros. *)
Theorem C45_zeros_refuted : crashes true opens_to_zeros.
Proof.
  apply (crashes_by true _ crash5); [reflexivity|apply fed_solo, fed_answered, fed_new| |vm_compute; reflexivity].
  apply zerosb_ok. vm_compute. reflexivity.
Qed.
Print Assumptions C45_zeros_refuted.
