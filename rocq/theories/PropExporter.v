(** Property C38: exported keying material. *)
From Verif Require Import Base Record Handshake Crypto CryptoSpec CryptoProofs PropCrypto Messages Pki Negotiation NegotiationSpec NegotiationProofs Machine Conn ConnSpec RunSpec Toy PropConn.

(** RFC 8446 section 7.5, for the exporter secret of a session. *)
Definition Exporter8446 (h : rfc_hash) (secret label context : bytes) (length : nat) : bytes :=
  Expand_Label8446 (rh_mac h) (Expand_Label8446 (rh_mac h) secret label (rh_hash h []) (rh_size h)) (str "exporter") (rh_hash h context) length.
(** An end that can export. *)
Definition exports (c : conn) : Prop := is_connected c = true /\ sc_exporter (c_state c) <> [].

Lemma export_is E c label context n : exports c -> computeExporter E c label context n =
  Ok (hkdfExpandLabel (v_prims E) (s_hash (sc_suite (c_state c)))
       (deriveSecret (v_prims E) (sc_suite (c_state c)) (sc_exporter (c_state c)) label (digest (v_prims E) (s_hash (sc_suite (c_state c))) []))
       (str "exporter") (context ++ digest (v_prims E) (s_hash (sc_suite (c_state c))) []) n).
Proof. intros [C X]. unfold computeExporter. rewrite C. cbn [negb]. destruct (sc_exporter (c_state c)); [congruence|reflexivity]. Qed.
Lemma export_formula E c label context n : mac_sized (v_prims E) -> exports c ->
  let h := hash_of (v_prims E) (sc_suite (c_state c)) in (n <= 255 * rh_size h)%nat ->
  computeExporter E c label context n =
  Ok (Expand_Label8446 (rh_mac h) (Expand_Label8446 (rh_mac h) (sc_exporter (c_state c)) label (rh_hash h []) (rh_size h)) (str "exporter") (context ++ rh_hash h []) n).
Proof.
  intros M X h N. rewrite export_is by exact X. unfold deriveSecret. rewrite !expand_label_rfc; auto using hsize_255.
Qed.

(** What is computed, for every label, context and length that HKDF can give: RFC 8446's derivation, but for the context, to which the hash of nothing is
    appended in place of hashing it. *)
Theorem C38_formula : forall E c label context n,
  mac_sized (v_prims E) -> exports c ->
  let h := hash_of (v_prims E) (sc_suite (c_state c)) in (n <= 255 * rh_size h)%nat ->
  computeExporter E c label context n =
  Ok (Expand_Label8446 (rh_mac h) (Expand_Label8446 (rh_mac h) (sc_exporter (c_state c)) label (rh_hash h []) (rh_size h)) (str "exporter") (context ++ rh_hash h []) n).
Proof. exact export_formula. Qed.
Print Assumptions C38_formula.
(** So with an empty context it is RFC 8446's. *)
Lemma export_empty E c label n : mac_sized (v_prims E) -> exports c ->
  let h := hash_of (v_prims E) (sc_suite (c_state c)) in (n <= 255 * rh_size h)%nat ->
  computeExporter E c label [] n = Ok (Exporter8446 h (sc_exporter (c_state c)) label [] n).
Proof. intros M X h N. now rewrite export_formula. Qed.
Theorem C38_empty_context : forall E c label n,
  mac_sized (v_prims E) -> exports c ->
  let h := hash_of (v_prims E) (sc_suite (c_state c)) in (n <= 255 * rh_size h)%nat ->
  computeExporter E c label [] n = Ok (Exporter8446 h (sc_exporter (c_state c)) label [] n).
Proof. exact export_empty. Qed.
Print Assumptions C38_empty_context.
(** But with another context it is not. *)
Definition rfc_exporter (E : env) (c : conn) : Prop := forall label context n,
  let h := hash_of (v_prims E) (sc_suite (c_state c)) in (n <= 255 * rh_size h)%nat ->
  computeExporter E c label context n = Ok (Exporter8446 h (sc_exporter (c_state c)) label context n).
Lemma toy_exports : exports toy_client.
Proof. split; [exact toy_client_connected|]. intros Q. vm_compute in Q. discriminate Q. Qed.
Definition expanded (P : prims) (c : conn) (context : bytes) : bytes :=
  let s := sc_suite (c_state c) in
  hkdfExpandLabel P (s_hash s) (deriveSecret P s (sc_exporter (c_state c)) (str "label") (digest P (s_hash s) [])) (str "exporter") context 32.
Lemma wrong_export E c : mac_sized (v_prims E) -> exports c ->
  beqb (expanded (v_prims E) c (str "context" ++ digest (v_prims E) (s_hash (sc_suite (c_state c))) [])) (expanded (v_prims E) c (digest (v_prims E) (s_hash (sc_suite (c_state c))) (str "context"))) = false ->
  ~ rfc_exporter E c.
Proof.
  intros M X W Q. specialize (Q (str "label") (str "context") 32%nat). cbv zeta in Q. rewrite export_is in Q by exact X.
  assert (B : (32 <= 255 * hsize (s_hash (sc_suite (c_state c))))%nat) by (destruct (s_hash (sc_suite (c_state c))); cbn; lia).
  specialize (Q B). apply Ok_inj in Q. unfold Exporter8446 in Q. cbn [rh_mac rh_hash rh_size hash_of] in Q.
  rewrite <- !expand_label_rfc in Q by (auto using hsize_255). apply beqb_neq in W. apply W. exact Q.
Qed.
Lemma toy_wrong : beqb (expanded (v_prims toy_env) toy_client (str "context" ++ digest (v_prims toy_env) (s_hash (sc_suite (c_state toy_client))) []))
  (expanded (v_prims toy_env) toy_client (digest (v_prims toy_env) (s_hash (sc_suite (c_state toy_client))) (str "context"))) = false.
Proof. vm_compute. reflexivity. Qed.
Theorem C38_refuted : exists E c, mac_sized (v_prims E) /\ used E (newConn toy_config [] true []) c /\ exports c /\ ~ rfc_exporter E c.
Proof. exists toy_env, toy_client. split; [exact toy_prims_sized|]. split; [exact toy_client_used|]. split; [exact toy_exports|exact (wrong_export toy_env toy_client toy_prims_sized toy_exports toy_wrong)]. Qed.
Print Assumptions C38_refuted.

(** ** Binding *)

(** The inputs of HMAC from which the first block of an exported value is made: the key of the label and the message with the context. *)
Definition label_message (P : prims) (s : suite) (label : bytes) : bytes := HkdfLabel8446 (str "tls13 " ++ label) (digest P (s_hash s) []) (N.of_nat (hsize (s_hash s))) ++ [x01].
Definition label_key (P : prims) (s : suite) (secret label : bytes) : bytes := hmac P (s_hash s) secret (label_message P s label).
Definition context_message (P : prims) (s : suite) (context : bytes) (n : nat) : bytes := HkdfLabel8446 (str "tls13 exporter") (context ++ digest P (s_hash s) []) (N.of_nat n) ++ [x01].

Lemma label_message_inj P s a b : label_message P s a = label_message P s b -> a = b.
Proof.
  unfold label_message, HkdfLabel8446. intros H. apply app_inj_tail in H as [H _]. apply app_inv_head in H.
  set (m1 := str "tls13 " ++ a) in *. set (m2 := str "tls13 " ++ b) in *.
  apply app_inv_length in H as [_ H]; [|now rewrite !be_length].
  assert (m1 = m2) as Q by (eapply app_inv_tail; exact H). unfold m1, m2 in Q. now apply app_inv_head in Q.
Qed.
Lemma context_message_inj P s a n b m : context_message P s a n = context_message P s b m -> a = b.
Proof.
  unfold context_message, HkdfLabel8446. intros H. apply app_inj_tail in H as [H _]. apply app_inv_length in H as [_ H]; [|now rewrite !be_length].
  apply app_inv_head in H. apply app_inv_head in H. apply app_inv_length in H as [_ H]; [|now rewrite !be_length]. now apply app_inv_tail in H.
Qed.
Lemma first_block P h key info n : mac_sized P -> (hsize h <= n <= 255 * hsize h)%nat -> firstn (hsize h) (hkdfExpand P h key info n) = hmac P h key (info ++ [x01]).
Proof.
  intros M N. rewrite (proj2 (expand_rfc P h key info n M (proj2 N))), firstn_firstn. replace (Nat.min (hsize h) n) with (hsize h) by lia.
  change 255%nat with (1 + 254)%nat. unfold blocks5869. rewrite seq_app, map_app, concat_app. cbn [seq map concat]. rewrite app_nil_r.
  cbn [T5869 app]. change (b8 (N.of_nat 1)) with x01. rewrite firstn_app, M, Nat.sub_diag. cbn [firstn]. rewrite app_nil_r. apply firstn_all2. rewrite M. lia.
Qed.
(** Two exports of a session for different labels or contexts can only be equal by a collision of HMAC, and this is where: for the key and message below, or
    for the messages of the labels under the exporter secret. *)
Definition clash (mac : bytes -> bytes -> bytes) (k1 m1 k2 m2 : bytes) : Prop := (k1, m1) <> (k2, m2) /\ mac k1 m1 = mac k2 m2.
Lemma export_binds E c l1 x1 n1 l2 x2 n2 v : mac_sized (v_prims E) -> exports c ->
  let P := v_prims E in let s := sc_suite (c_state c) in let secret := sc_exporter (c_state c) in let mac := hmac P (s_hash s) in let size := hsize (s_hash s) in
  (size <= n1 <= 255 * size)%nat -> (size <= n2 <= 255 * size)%nat -> (l1, x1) <> (l2, x2) ->
  computeExporter E c l1 x1 n1 = Ok v -> computeExporter E c l2 x2 n2 = Ok v ->
  clash mac (label_key P s secret l1) (context_message P s x1 n1) (label_key P s secret l2) (context_message P s x2 n2) \/
  clash mac secret (label_message P s l1) secret (label_message P s l2).
Proof.
  intros M X P s secret mac size N1 N2 D H1 H2. rewrite export_is in H1, H2 by exact X. apply Ok_inj in H1, H2.
  assert (K : forall l x n w, (size <= n <= 255 * size)%nat -> hkdfExpandLabel P (s_hash s) (deriveSecret P s secret l (digest P (s_hash s) [])) (str "exporter") (x ++ digest P (s_hash s) []) n = w ->
     firstn size w = mac (label_key P s secret l) (context_message P s x n)).
  { intros l x n w N <-. unfold hkdfExpandLabel. subst size. rewrite first_block by assumption. unfold deriveSecret, hkdfExpandLabel.
    rewrite <- (firstn_all2 (hkdfExpand P (s_hash s) secret (hkdfEncodeLabel l (digest P (s_hash s) []) (N.of_nat (hsize (s_hash s)))) (hsize (s_hash s))) (n := hsize (s_hash s))).
    2:{ destruct (expand_rfc P (s_hash s) secret (hkdfEncodeLabel l (digest P (s_hash s) []) (N.of_nat (hsize (s_hash s)))) (hsize (s_hash s)) M (hsize_255 _)) as [-> _]. lia. }
    rewrite first_block by (auto; lia). rewrite !label_rfc. reflexivity. }
  pose proof (K _ _ _ _ N1 H1) as E1. pose proof (K _ _ _ _ N2 H2) as E2. rewrite E2 in E1. symmetry in E1.
  destruct (list_eq_dec Byte.byte_eq_dec x1 x2) as [->|Nx].
  - destruct (list_eq_dec Byte.byte_eq_dec l1 l2) as [->|Nl]; [congruence|].
    destruct (list_eq_dec Byte.byte_eq_dec (label_key P s secret l1) (label_key P s secret l2)) as [Q|Q].
    + right. split; [|exact Q]. intros A. apply Nl. apply (f_equal snd) in A. cbn [snd] in A. eapply label_message_inj; exact A.
    + left. split; [congruence|exact E1].
  - left. split; [|exact E1]. intros A. apply Nx. apply (f_equal snd) in A. cbn [snd] in A. eapply context_message_inj; exact A.
Qed.
Theorem C38_binds : forall E c l1 x1 n1 l2 x2 n2 v, mac_sized (v_prims E) -> exports c ->
  let P := v_prims E in let s := sc_suite (c_state c) in let secret := sc_exporter (c_state c) in let mac := hmac P (s_hash s) in let size := hsize (s_hash s) in
  (size <= n1 <= 255 * size)%nat -> (size <= n2 <= 255 * size)%nat -> (l1, x1) <> (l2, x2) ->
  computeExporter E c l1 x1 n1 = Ok v -> computeExporter E c l2 x2 n2 = Ok v ->
  clash mac (label_key P s secret l1) (context_message P s x1 n1) (label_key P s secret l2) (context_message P s x2 n2) \/
  clash mac secret (label_message P s l1) secret (label_message P s l2).
Proof. exact export_binds. Qed.
Print Assumptions C38_binds.
Example C38_example : mac_sized (v_prims toy_env) /\ exports toy_client /\ sc_suite (c_state toy_client) = mkSuite TLS_AES_128_GCM_SHA256 SHA256 16 12 /\
  match computeExporter toy_env toy_client (str "label") (str "context") 40 with Ok v => List.length v = 40%nat | _ => False end /\
  computeExporter toy_env toy_client (str "label") (str "context") 40 = computeExporter toy_env toy_server (str "label") (str "context") 40.
Proof. split; [exact toy_prims_sized|]. split; [exact toy_exports|]. vm_compute. repeat split. Qed.
(** With an HMAC that always gives zeros all exports are equal. *)
Definition zero_prims : prims := mkPrims (digest toy_prims) (fun h _ _ => repeat x00 (hsize h)) (ec_public toy_prims) (ec_agree toy_prims).
Definition zero_env : env := mkEnv zero_prims (v_pki toy_env) (v_gcm toy_env) (v_grow toy_env).
Example C38_binds_example : mac_sized (v_prims zero_env) /\ exports toy_client /\ (str "label", str "context") <> (str "label", str "other") /\
  computeExporter zero_env toy_client (str "label") (str "context") 32 = Ok (repeat x00 32) /\
  computeExporter zero_env toy_client (str "label") (str "other") 32 = Ok (repeat x00 32).
Proof. split; [intros h k m; apply repeat_length|]. split; [exact toy_exports|]. split; [discriminate|]. split; vm_compute; reflexivity. Qed.
