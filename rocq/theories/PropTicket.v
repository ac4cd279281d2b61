(** Property C37: session tickets. *)
From Verif Require Import Base Frame Record Handshake HandshakeProofs Crypto CryptoSpec CryptoProofs PropCrypto Messages MessageSpec MessageProofs2 MessageProofs3 Pki Negotiation NegotiationSpec NegotiationProofs Machine MachineProofs StepProofs Conn ConnSpec RunSpec Toy PropConn ChannelSpec ChannelProofs PropChannel PropExporter.

(** Two PSKs that work with each other. *)
Definition same_psk (p q : psk) : Prop :=
  psk_identity p = psk_identity q /\ psk_key p = psk_key q /\ psk_suite p = psk_suite q /\ psk_nextProto p = psk_nextProto q /\ psk_ageAdd p = psk_ageAdd q /\
  psk_isResumption p = true /\ psk_isResumption q = true /\ (psk_expiresAt p - psk_receivedAt p = psk_expiresAt q - psk_receivedAt q)%Z.
(** Two ends of one session, as far as tickets are concerned. *)
Definition one_session (a b : connected) : Prop :=
  sc_suite a = sc_suite b /\ sc_resumption a = sc_resumption b /\ p_nextProto (sc_params a) = p_nextProto (sc_params b).
(** A client that is established. *)
Definition receiver (c : conn) : Prop := c_isClient c = true /\ sc_isClient (c_state c) = true /\ cf_useDTLS (c_cfg c) = false /\ cf_psks (c_cfg c) <> None.

Lemma get_put l k p : cache_get (cache_put l k p) k = Some p.
Proof. cbn. now rewrite beqb_refl. Qed.
Lemma queue_psks E ms c m c' r : takeAction E ms c (QueueHandshakeMessage m) = (c', r) -> w_psks (c_world c') = w_psks (c_world c).
Proof. cbn [takeAction]. destruct (queueMessage _ _). intros [= <- _]. reflexivity. Qed.
Lemma send_psks E ms c c' r : takeAction E ms c SendQueuedHandshake = (c', r) -> w_psks (c_world c') = w_psks (c_world c).
Proof.
  cbn [takeAction]. destruct (sendQueued _) as [x q]. destruct (or_alert q AlertInternalError) as [u|e| |]; cbn [sbind]; intros [= <- _]; try reflexivity. destruct (cf_useDTLS _); reflexivity.
Qed.
Lemma ticket_small t b : tkt_marshal t = Ok b -> len b < 2 ^ 24.
Proof.
  intros H. apply tkt_is in H as [F ->]. unfold tkt_fits, exts_fit, sized in F. unfold tkt_wire, vector. unfold len in *. rewrite !app_length, !be_length, !Nat2N.inj_add.
  rewrite ?andb_true_iff, ?N.leb_le in F. lia.
Qed.

(** The time, in nanoseconds, at which a ticket that lives for so many seconds ends. *)
Definition expiry (received : Z) (seconds : N) : Z := (received + 10 ^ 9 * Z.of_N seconds)%Z.

Section Tickets.
Context (E : env) (sized : mac_sized (v_prims E)).

(** RFC 8446 section 4.6.1: the PSK of a ticket. *)
Definition ticket_key (s : suite) (secret nonce : bytes) : bytes :=
  Expand_Label8446 (rh_mac (hash_of (v_prims E) s)) secret (str "resumption") nonce (rh_size (hash_of (v_prims E) s)).

Lemma key_is now k t : psk_key (ticketPSK (v_prims E) now k t) = ticket_key (sc_suite k) (sc_resumption k) (tk_nonce t).
Proof. cbn [ticketPSK psk_key]. unfold ticket_key, labelResumption. rewrite expand_label_rfc; auto using hsize_255. Qed.

(** What a server's ticket is. *)
Lemma issue o w k w' acts : newTicket (v_prims E) o w k = (w', Ok acts) ->
  exists t m, acts = [StorePSK (ticketPSK (v_prims E) (o_now o) k t); QueueHandshakeMessage m; SendQueuedHandshake] /\ made w (BNewSessionTicket t) m /\ w_cfg w' = w_cfg w /\ w_psks w' = w_psks w /\
    exists buf, o_ticket o = Some buf /\ tk_nonce t = firstn 16 (skipn 4 buf) /\ tk_ticket t = skipn 20 buf /\ tk_lifetime t = cf_ticketLifetime (w_cfg w).
Proof.
  unfold newTicket. unfold newSessionTicket. destruct (o_ticket o) as [buf|]; [|discriminate]. cbn [or_alert sbind].
  destruct (or_alert (el_add _ _ _) _) as [exts|e| |]; cbn [sbind]; try discriminate. cbn [tk_lifetime tk_ageAdd tk_nonce tk_ticket].
  destruct (newMessage w _) as [w1 r] eqn:N. destruct r as [m|e| |]; cbn [sbind]; try discriminate. intros H. inversion H; subst w' acts.
  assert (w_cfg w1 = w_cfg w /\ w_psks w1 = w_psks w) as [C S].
  { revert N. unfold newMessage, makeMessage. destruct (body_marshal _); cbn [messageFromBody]; intros [= <- _]; split; reflexivity. }
  apply new_ok in N as [M _]. eexists _, m. split; [reflexivity|]. split; [exact M|]. split; [exact C|]. split; [exact S|]. exists buf. repeat split.
Qed.
(** What a client does with it. *)
Lemma accept t m w oc cc n : made w (BNewSessionTicket t) m -> hl_datagram (x_out (w_ctx w)) = false -> receiver cc ->
  exists cc', post_messages E (S n) oc cc (hm_marshal m) = (cc', Ok tt) /\ cache_get (w_psks (c_world cc')) (cf_serverName (c_cfg cc)) = Some (ticketPSK (v_prims E) (o_now oc) (c_state cc) t).
Proof.
  intros (B & T & _ & D & _ & L & _) Dg (C & S & Td & P). rewrite Dg in D. unfold hm_marshal. rewrite D, L, T. cbn [body_type]. rewrite app_nil_l.
  pose proof (ticket_small _ _ B) as Sm. rewrite N.mod_small by lia.
  rewrite post_one by assumption. unfold processMessage. cbn [hm_type hm_body].
  pose proof (body_back (x_parses (v_pki E)) (BNewSessionTicket t) _ I B) as K. cbn [body_type] in K. rewrite K. cbn [or_alert sbind]. rewrite S. cbn [negb]. cbn [takeActions takeAction].
  change (c_cfg (set_world cc (c_world cc))) with (c_cfg cc). destruct (cf_psks (c_cfg cc)) as [u|] eqn:U; [|congruence]. cbn [sbind].
  eexists. split; [reflexivity|]. change (c_isClient (set_world cc (c_world cc))) with (c_isClient cc). rewrite C. cbn. now rewrite beqb_refl.
Qed.
Lemma agree o oc k cc t : one_session k (c_state cc) -> same_psk (ticketPSK (v_prims E) (o_now o) k t) (ticketPSK (v_prims E) (o_now oc) (c_state cc) t).
Proof.
  intros (S & R & N). unfold same_psk, ticketPSK. cbn [psk_identity psk_key psk_suite psk_nextProto psk_ageAdd psk_isResumption psk_expiresAt psk_receivedAt].
  rewrite S, R, N. repeat split. lia.
Qed.

(** The server stores the PSK of the ticket it sends, and any client of the session that receives it stores a matching one. *)
Lemma tickets o c k c' w acts : c_isClient c = false -> hl_datagram (x_out (c_ctx c)) = false -> cf_sendSessionTickets (c_cfg c) = true ->
  newTicket (v_prims E) o (c_world c) k = (w, Ok acts) -> on_connected E o c k = (c', Ok tt) ->
  exists p m, In (QueueHandshakeMessage m) acts /\ cache_get (w_psks (c_world c')) (hexEncode (psk_identity p)) = Some p /\ psk_receivedAt p = o_now o /\
    psk_expiresAt p = expiry (psk_receivedAt p) (cf_ticketLifetime (c_cfg c)) /\ psk_suite p = s_id (sc_suite k) /\
    (exists buf, o_ticket o = Some buf /\ psk_key p = ticket_key (sc_suite k) (sc_resumption k) (firstn 16 (skipn 4 buf)) /\ psk_identity p = skipn 20 buf) /\
    forall cc oc n, receiver cc -> one_session k (c_state cc) ->
      exists cc' q, post_messages E (S n) oc cc (hm_marshal m) = (cc', Ok tt) /\ cache_get (w_psks (c_world cc')) (cf_serverName (c_cfg cc)) = Some q /\ psk_receivedAt q = o_now oc /\ same_psk p q.
Proof.
  intros C D T N H. pose proof (issue _ _ _ _ _ N) as (t & m & -> & M & Wc & Ws & buf & B & Nn & Nt & Nl).
  exists (ticketPSK (v_prims E) (o_now o) k t), m. split; [right; now left|]. split.
  - unfold on_connected in H. change (c_isClient (set_complete c k)) with (c_isClient c) in H. rewrite C in H. change (c_cfg (set_complete c k)) with (c_cfg c) in H. rewrite T in H.
    change (c_world (set_complete c k)) with (c_world c) in H. rewrite N in H.
    set (c0 := set_world (set_complete c k) w) in H. set (p := ticketPSK (v_prims E) (o_now o) k t) in *.
    destruct (takeActions E (o_ms o) c0 _) as [c1 r1] eqn:A. cbn [takeActions] in A.
    destruct (takeAction E (o_ms o) c0 (StorePSK p)) as [c2 r2] eqn:A2.
    assert (r2 = Ok tt -> cache_get (w_psks (c_world c2)) (hexEncode (psk_identity p)) = Some p) as G.
    { cbn [takeAction] in A2. destruct (cf_psks (c_cfg c0)); [|now injection A2 as <- <-]. intros _. injection A2 as <- _. change (c_isClient c0) with (c_isClient c). rewrite C. apply get_put. }
    assert (exists x, r1 = Ok x /\ w_psks (c_world c') = w_psks (c_world c1)) as (x & -> & Q).
    { destruct r1 as [u|e| |]; cbn [sbind] in H; try discriminate; [|destruct e as [al| |]; cbn in H; try discriminate; unfold fail_alert in H; try discriminate].
      - exists u. split; [reflexivity|]. destruct (w_early (c_world c1)); inversion H; subst; reflexivity.
      - destruct (sendAlert c1 al) as [? []]; discriminate. }
    rewrite Q. destruct r2 as [[]|e| |]; cbn [sbind] in A; try discriminate.
    destruct (takeAction E (o_ms o) c2 (QueueHandshakeMessage m)) as [c3 r3] eqn:A3. apply queue_psks in A3. destruct r3 as [[]|e| |]; cbn [sbind] in A; try discriminate.
    destruct (takeAction E (o_ms o) c3 SendQueuedHandshake) as [c4 r4] eqn:A4. apply send_psks in A4. destruct r4 as [[]|e| |]; cbn [sbind] in A; try discriminate.
    injection A as <- _. rewrite A4, A3. now apply G.
  - split; [reflexivity|]. split; [cbn [psk_expiresAt psk_receivedAt ticketPSK]; rewrite Nl; unfold expiry; change (w_cfg (c_world c)) with (c_cfg c); lia|]. split; [reflexivity|]. split.
    + exists buf. split; [exact B|]. split; [|exact Nt]. rewrite key_is. now rewrite Nn.
    + intros cc oc n R O. destruct (accept t m _ oc cc n M D R) as (cc' & Q & G). exists cc', (ticketPSK (v_prims E) (o_now oc) (c_state cc) t).
      split; [exact Q|]. split; [exact G|]. split; [reflexivity|]. now apply agree.
Qed.
(** Keys of different nonces. *)
Definition nonce_message (s : suite) (nonce : bytes) : bytes :=
  HkdfLabel8446 (str "tls13 resumption") nonce (N.of_nat (hsize (s_hash s))) ++ [x01].
Lemma nonces s secret a b : a <> b -> ticket_key s secret a = ticket_key s secret b -> clash (hmac (v_prims E) (s_hash s)) secret (nonce_message s a) secret (nonce_message s b).
Proof.
  intros D H. split.
  - intros Q. apply (f_equal snd) in Q. cbn [snd] in Q. unfold nonce_message, HkdfLabel8446 in Q. apply app_inj_tail in Q as [Q _]. do 3 (apply app_inv_length in Q as [_ Q]; [|now rewrite ?be_length]).
    apply app_inv_length in Q as [_ Q]; [|now rewrite ?be_length]. now apply D.
  - unfold ticket_key in H. cbn [rh_mac rh_size hash_of] in H. rewrite <- !expand_label_rfc in H by (auto using hsize_255). unfold hkdfExpandLabel in H.
    apply (f_equal (firstn (hsize (s_hash s)))) in H. pose proof (conj (le_n (hsize (s_hash s))) (hsize_255 (s_hash s))) as Sz; rewrite !first_block in H by assumption. rewrite !label_rfc in H. exact H.
Qed.
End Tickets.

Theorem C37_agree : forall E o c k c' w acts, mac_sized (v_prims E) ->
  c_isClient c = false -> hl_datagram (x_out (c_ctx c)) = false -> cf_sendSessionTickets (c_cfg c) = true ->
  newTicket (v_prims E) o (c_world c) k = (w, Ok acts) -> on_connected E o c k = (c', Ok tt) ->
  exists p m, In (QueueHandshakeMessage m) acts /\ cache_get (w_psks (c_world c')) (hexEncode (psk_identity p)) = Some p /\ psk_receivedAt p = o_now o /\
    psk_expiresAt p = expiry (psk_receivedAt p) (cf_ticketLifetime (c_cfg c)) /\ psk_suite p = s_id (sc_suite k) /\
    (exists buf, o_ticket o = Some buf /\ psk_key p = ticket_key E (sc_suite k) (sc_resumption k) (firstn 16 (skipn 4 buf)) /\ psk_identity p = skipn 20 buf) /\
    forall cc oc n, receiver cc -> one_session k (c_state cc) ->
      exists cc' q, post_messages E (S n) oc cc (hm_marshal m) = (cc', Ok tt) /\ cache_get (w_psks (c_world cc')) (cf_serverName (c_cfg cc)) = Some q /\ psk_receivedAt q = o_now oc /\ same_psk p q.
Proof. intros E o c k c' w acts M. exact (tickets E M o c k c' w acts). Qed.
Print Assumptions C37_agree.
Theorem C37_nonces : forall E s secret a b, mac_sized (v_prims E) ->
  a <> b -> ticket_key E s secret a = ticket_key E s secret b -> clash (hmac (v_prims E) (s_hash s)) secret (nonce_message s a) secret (nonce_message s b).
Proof. intros E s secret a b M. exact (nonces E M s secret a b). Qed.
Print Assumptions C37_nonces.

(** A server that gives out another ticket, and its client. *)
Definition ticket_c := n_server pair0.
Definition is_ok {S A} (p : S * res A) : bool := match snd p with Ok _ => true | _ => false end.
Lemma ok_is {S A} (p : S * res A) : is_ok p = true -> exists a, p = (fst p, Ok a).
Proof. destruct p as [s []]; try discriminate. intros _. now eexists. Qed.
Lemma ticket_case E o c k : is_ok (newTicket (v_prims E) o (c_world c) k) = true -> is_ok (on_connected E o c k) = true -> c_isClient c = false -> hl_datagram (x_out (c_ctx c)) = false ->
  cf_sendSessionTickets (c_cfg c) = true -> exists c' w acts,
  c_isClient c = false /\ hl_datagram (x_out (c_ctx c)) = false /\ cf_sendSessionTickets (c_cfg c) = true /\
  newTicket (v_prims E) o (c_world c) k = (w, Ok acts) /\ on_connected E o c k = (c', Ok tt).
Proof. intros A B C D F. destruct (ok_is _ A) as [acts ->]. destruct (ok_is _ B) as [[] ->]. eauto 10. Qed.
Lemma session_case a b : sc_suite a = sc_suite b -> sc_resumption a = sc_resumption b -> p_nextProto (sc_params a) = p_nextProto (sc_params b) -> one_session a b.
Proof. now repeat split. Qed.
Lemma receiver_case c : c_isClient c = true -> sc_isClient (c_state c) = true -> cf_useDTLS (c_cfg c) = false -> match cf_psks (c_cfg c) with None => false | _ => true end = true -> receiver c.
Proof. intros A B C D. repeat split; auto. now destruct (cf_psks (c_cfg c)). Qed.
Example C37_example : mac_sized (v_prims toy_env) /\ (exists c' w acts,
  c_isClient ticket_c = false /\ hl_datagram (x_out (c_ctx ticket_c)) = false /\ cf_sendSessionTickets (c_cfg ticket_c) = true /\
  newTicket (v_prims toy_env) (toy_oracle 7) (c_world ticket_c) (c_state ticket_c) = (w, Ok acts) /\ on_connected toy_env (toy_oracle 7) ticket_c (c_state ticket_c) = (c', Ok tt)) /\
  receiver (n_client pair0) /\ one_session (c_state ticket_c) (c_state (n_client pair0)) /\ sc_resumption (c_state ticket_c) <> [].
Proof.
  split; [exact toy_prims_sized|]. split; [apply ticket_case; nf|]. split; [apply receiver_case; nf|]. split; [apply session_case; nf|]. intros Q. vm_compute in Q. discriminate Q.
Qed.
Example C37_nonces_example : mac_sized (v_prims zero_env) /\ [x01] <> [x02] /\
  ticket_key zero_env (mkSuite TLS_AES_128_GCM_SHA256 SHA256 16 12) [] [x01] = ticket_key zero_env (mkSuite TLS_AES_128_GCM_SHA256 SHA256 16 12) [] [x02].
Proof.
  split; [intros h k m; apply repeat_length|]. split; [discriminate|].
  unfold ticket_key. cbn [rh_mac rh_size hash_of s_hash]. change 32%nat with (hsize SHA256). rewrite <- !expand_label_rfc by (try apply hsize_255; intros h k m; apply repeat_length). reflexivity.
Qed.
