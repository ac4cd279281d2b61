(** The ticket a server sends at the end of a handshake, as the other end will come across it. *)
From Verif Require Import Base Syntax Frame FrameProofs Record RecordSpec RecordProofs RecordProofs2 HandshakeProofs Timer Handshake DtlsSpec DtlsProofs DtlsProofs2 Crypto CryptoSpec Messages MessageSpec MessageProofs MessageProofs2 MessageProofs3 Pki Negotiation Machine MachineProofs Conn ConnSpec ChannelSpec ChannelProofs.

(** ** Its size *)

Lemma tedi_size n b : tedi_marshal n = Ok b -> List.length b = 4%nat.
Proof.
  assert (tedi_marshal n = Ok b <-> (n <? 2 ^ 32) = true /\ b = be 4 n) as H by (unfold tedi_marshal; wire tedi_ty; tidy).
  intros K. apply H in K. destruct K as [_ ->]. apply be_length.
Qed.
Lemma ticket_size t b : tkt_marshal t = Ok b -> len b < 2 ^ 24 /\ len b = 13 + len (tk_nonce t) + len (tk_ticket t) + len (exts_wire (tk_exts t)).
Proof.
  intros H. apply tkt_is in H as [F ->]. unfold tkt_fits, exts_fit, sized in F. unfold tkt_wire, vector. unfold len in *. rewrite !app_length, !be_length, !Nat2N.inj_add.
  rewrite ?andb_true_iff, ?N.leb_le in F. lia.
Qed.
Lemma ticket_made P o w k w' r : newTicket P o w k = (w', r) ->
  (w' = w /\ forall a, r <> Ok a) \/
  exists t b buf, r = Ok [StorePSK (ticketPSK P (o_now o) k t); QueueHandshakeMessage (mkHm x04 (hl_msgSeq (x_out (w_ctx w))) b (hl_datagram (x_out (w_ctx w))) 0 (len b mod 2 ^ 32) None); SendQueuedHandshake] /\
    w' = set_ctx w (set_out (w_ctx w) (set_queue (x_out (w_ctx w)) ((hl_msgSeq (x_out (w_ctx w)) + 1) mod 2 ^ 32) (hl_queued (x_out (w_ctx w))))) /\
    tkt_marshal t = Ok b /\ o_ticket o = Some buf /\ len b < 2 ^ 24 /\ len b <= len buf + 37.
Proof.
  unfold newTicket, newSessionTicket. destruct (o_ticket o) as [buf|]; cbn [or_alert sbind]; [|intros [= <- <-]; left; split; [reflexivity|discriminate]].
  cbn [tk_lifetime tk_ageAdd tk_nonce tk_ticket tk_exts]. unfold el_add. cbn [el_replace]. destruct (tedi_marshal _) as [d|e| |] eqn:Td; cbn [bind or_alert sbind].
  2: { intros [= <- <-]; left; split; [reflexivity|discriminate]. }
  2-3: intros [= <- <-]; left; split; [reflexivity|discriminate].
  set (t := mkTkt _ _ _ _ _). unfold newMessage, makeMessage. cbn [body_marshal]. destruct (tkt_marshal t) as [b|e| |] eqn:Tm; cbn [messageFromBody or_alert sbind].
  2: { intros [= <- <-]; left; split; [reflexivity|discriminate]. }
  2-3: intros [= <- <-]; left; split; [reflexivity|discriminate].
  intros H. right. exists t, b, buf. injection H as <- <-. destruct (ticket_size _ _ Tm) as [S1 S2]. do 4 (split; [reflexivity || exact Tm|]). split; [exact S1|]. rewrite S2. unfold t. cbn [tk_nonce tk_ticket tk_exts].
  apply tedi_size in Td. unfold exts_wire. cbn [map concat List.app]. unfold ext_wire, vector. cbn [e_type e_data]. unfold len.
  rewrite app_nil_r, !app_length, !be_length, firstn_length, !skipn_length, Td. lia.
Qed.

(** ** Its record *)

Section Ticket.
Variable E : env.
Variable s : suite.
Hypothesis gcm : gcm_ok E.
Hypothesis sized : mac_sized (v_prims E).
Hypothesis known : cipherSuiteMap (s_id s) = Some s.

Lemma queue_one client c m now c' : end_ok s client c -> hm_datagram m = false -> hm_length m = len (hm_body m) -> (4 + List.length (hm_body m) <= N.to_nat 16384)%nat ->
  takeAction E now c (QueueHandshakeMessage m) = (c', Ok tt) ->
  exists l1, writeRecord (c_out c) (mkPt x16 0 0 ([hm_type m] ++ be 3 (len (hm_body m)) ++ hm_body m)) = (l1, Ok tt) /\ c' = upd_out c l1.
Proof.
  intros EO D L Sz H. pose proof (eo_out _ _ _ EO) as eo_out0. pose proof (eo_max _ _ _ EO) as eo_max0. pose proof (eo_sent _ _ _ EO) as eo_sent0.
  cbn [takeAction] in H. unfold queueMessage in H. rewrite eo_out0 in H.
  cbn [writeMessages] in H. unfold writeMessage in H.
  assert (maxHandshakeMessageLen <? len (hm_body m) = false) as Mx by (apply N.ltb_ge; unfold len, maxHandshakeMessageLen; lia). rewrite Mx in H. cbn [writeMessage_loop] in H.
  unfold writeFragment in H. rewrite D, eo_max0, eo_sent0, eo_out0 in H. cbn [Nat.eqb handshakeHeaderLen] in H.
  destruct (Nat.leb_spec (N.to_nat 16384) 4) as [Q|Q]; [lia|]. rewrite fragmentAcked_nil in H. cbn [Nat.ltb Nat.leb] in H.
  rewrite Nat.sub_0_r, Nat.min_l in H by lia. cbn [skipn Nat.add] in H. rewrite firstn_all in H.
  unfold hm_marshal in H. cbn [hm_type hm_length hm_datagram hm_body] in H. rewrite L in H. cbn [List.app] in H.
  change (hl_conn (x_out (c_ctx c))) with (c_out c) in H. change rtHandshake with x16 in H. cbn [List.app].
  destruct (writeRecord (c_out c) _) as [l1 r1]. exists l1. 
  destruct r1 as [u|e| |]; cbn -[Nat.leb] in H; try discriminate. rewrite Nat.leb_refl in H. cbn in H. injection H as <-. destruct u. split; reflexivity.
Qed.
Lemma server_connected o c k p t c' : end_ok s false (set_complete c k) -> w_early (c_world c) = [] -> direction_ok E s false (set_complete c k) p t [] ->
  (forall buf, o_ticket o = Some buf -> len buf <= 16000) -> on_connected E o c k = (c', Ok tt) ->
  exists l, end_ok s false c' /\ direction_ok E s false c' p t l /\ app_data l = [] /\ c_in c' = c_in c /\ c_state c' = k /\ c_readBuffer c' = c_readBuffer c.
Proof.
  intros EO We Di Bo H. unfold on_connected in H. cbv zeta in H. pose proof (eo_client _ _ _ EO) as Ci. rewrite Ci in H.
  set (c0 := set_complete c k) in *.
  assert (forall c1, w_early (c_world c1) = [] -> (match w_early (c_world c1) with [] => c1 | (_ :: _) as early => set_readBuffer (set_world c1 (set_early (c_world c1) [])) early end) = c1) as Z by (intros c1 ->; reflexivity).
  assert (exists l, end_ok s false c0 /\ direction_ok E s false c0 p t l /\ app_data l = [] /\ c_in c0 = c_in c /\ c_state c0 = k /\ c_readBuffer c0 = c_readBuffer c) as Base.
  { exists []. split; [exact EO|]. split; [exact Di|]. repeat split. }
  destruct (cf_sendSessionTickets (c_cfg c0)).
  2: { cbn [sbind] in H. rewrite Z in H by exact We. injection H as <-. exact Base. }
  destruct (newTicket (v_prims E) o (c_world c0) k) as [w r] eqn:Nt. apply ticket_made in Nt.
  destruct Nt as [[-> Nr]|(tk & b & buf & -> & -> & Tm & Bu & Sm & Sz)].
  - destruct r as [a|e| |]; cbn [sbind] in H; try discriminate; [destruct (Nr a eq_refl)|].
    change (set_world c0 (c_world c0)) with (mkC (c_world c0) (c_isClient c0) (c_state c0) (c_hState c0) (c_complete c0) (c_readBuffer c0) (c_closed c0)) in H.
    rewrite Z in H by exact We. injection H as <-. destruct c as [cw ci cs ch co cr cl]. exact Base.
  - specialize (Bo _ Bu). change (set_world c0 (set_ctx _ _)) with (bump c0) in H. pose proof (end_bump _ _ _ EO) as EO1.
    rewrite (eo_out _ _ _ EO : hl_datagram (x_out (w_ctx (c_world c0))) = false) in H. rewrite N.mod_small in H by (eapply N.lt_trans; [exact Sm|reflexivity]).
    set (m := mkHm x04 _ b false 0 (len b) None) in H.
    destruct (takeActions E (o_ms o) (bump c0) _) as [c1 r1] eqn:Ta.
    assert (r1 = Ok tt) as ->.
    { destruct r1 as [[]|e| |]; [reflexivity| |discriminate..]. destruct e as [a| |]; cbn [sbind] in H; try discriminate. unfold fail_alert in H. destruct (sendAlert c1 a) as [c2 [|e2| |]]; discriminate. }
    cbn [sbind] in H. cbn [takeActions] in Ta. destruct (takeAction E (o_ms o) (bump c0) (StorePSK _)) as [c2 r2] eqn:A2.
    destruct r2 as [[]|e| |]; cbn [sbind] in Ta; try discriminate.
    assert (exists q, c2 = set_world (bump c0) (set_psks (c_world (bump c0)) q)) as (q & ->).
    { cbn [takeAction] in A2. destruct (cf_psks (c_cfg (bump c0))); [|discriminate]. injection A2 as <-. eexists. reflexivity. }
    set (c2 := set_world (bump c0) _) in *. pose proof (end_psks _ _ _ q EO1 : end_ok s false c2) as EO2. clear A2.
    destruct (takeAction E (o_ms o) c2 (QueueHandshakeMessage m)) as [c3 r3] eqn:A3. destruct r3 as [[]|e| |]; cbn [sbind] in Ta; try discriminate.
    apply (queue_one false) in A3; [|exact EO2|reflexivity|reflexivity|unfold m, len in *; cbn [hm_body]; lia].
    destruct A3 as (l1 & Wr & ->). pose proof (end_out _ _ _ l1 EO2) as EO3.
    rewrite (send_none _ _ _ _ _ EO3) in Ta. cbn [sbind] in Ta. injection Ta as <-.
    rewrite Z in H by exact We. injection H as <-. exists [Ticket tk b]. split; [exact EO3|]. split; [|repeat split].
    refine (out_item E s gcm sized known false c2 p t [] x16 _ l1 (Ticket tk b) _ _ Wr _ _ _ _ _); try reflexivity; try discriminate.
    + exact Di.
    + intros pt T F. cbn [carries]. split; [exact T|]. split; [exact F|]. split; [exact Sm|]. split; [|reflexivity].
      exact (body_back (x_parses (v_pki E)) (BNewSessionTicket tk) _ I Tm).
Qed.
End Ticket.
