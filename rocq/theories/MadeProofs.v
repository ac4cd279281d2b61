(** The messages an end sends over a stream are whole. *)
From Verif Require Import Base Syntax Frame Record Handshake Crypto CryptoSpec CryptoProofs Messages Pki Negotiation Machine MachineProofs Cookie Client Server StepProofs CtxProofs StillProofs.

Definition plain (w : world) : Prop := hl_datagram (x_out (w_ctx w)) = false.
Definition framed (m : hmsg) : Prop := hm_datagram m = false /\ hm_offset m = 0 /\ hm_length m = len (hm_body m) mod 2 ^ 32 /\ hm_cipher m = None.
Lemma made_framed w b m : plain w -> made w b m -> framed m.
Proof. intros Pl (_ & _ & _ & A & B & C & D). unfold framed, plain in *. rewrite A, B, C, D. auto. Qed.
Lemma plain_ctx w w' : x_out (w_ctx w') = x_out (w_ctx w) -> plain w -> plain w'.
Proof. unfold plain. now intros ->. Qed.
Lemma new_framed w b w' m : plain w -> newMessage w b = (w', Ok m) -> framed m /\ plain w'.
Proof.
  intros Pl H. split; [apply new_ok in H; exact (made_framed _ _ _ Pl (proj1 H))|].
  unfold newMessage, makeMessage in H. destruct (body_marshal b); try discriminate. injection H as <- _. exact Pl.
Qed.
Lemma hrr_framed o w s ses t w' m : plain w -> generateHRR o w s ses t = (w', Ok m) -> framed m /\ plain w'.
Proof. unfold generateHRR. intros Pl H. inv_pure H as l H1. inv_pure H as l2 H2. exact (new_framed _ _ _ _ Pl H). Qed.

Lemma start_framed P o w st w' s acts retry : plain w -> client_start P o w st = (w', Ok (s, acts, retry)) -> Forall framed (sent_of acts).
Proof.
  intros Pl H. apply client_start_ok in H. destruct H as (ws & ch & sending & k & _ & _ & -> & M & _). apply made_framed in M; [|exact Pl].
  destruct sending; cbn [sent_of app]; repeat constructor; apply M.
Qed.
Lemma client_auth_framed P X o w k certs cr w' acts : plain w -> client_auth P X o w k certs cr = (w', Ok acts) -> Forall framed (sent_of acts) /\ plain w'.
Proof.
  unfold client_auth. intros Pl H. destruct (negb _); [injection H as <- <-; split; [constructor|exact Pl]|]. destruct cr as [c|]; [|discriminate]. destruct (el_find _ _ _); [|discriminate].
  inv_pure H as schemes H1. destruct (certificateSelection _ _ _ _) as [[cert scheme]|e| |]; try discriminate.
  - inv_call H as w1 certm M. apply new_framed in M; [|exact Pl]. destruct M as [F1 P1]. inv_pure H as cv H2. inv_call H as w2 cvm M. apply new_framed in M; [|exact P1]. destruct M as [F2 P2].
    injection H as <- <-. split; [repeat constructor; assumption || apply F1 || apply F2|exact P2].
  - inv_call H as w1 certm M. apply new_framed in M; [|exact Pl]. destruct M as [F1 P1]. injection H as <- <-. split; [constructor; [exact F1|constructor]|exact P1].
Qed.
Lemma eoed_framed P w k w' acts : plain w -> client_eoed P w k = (w', Ok acts) -> Forall framed (sent_of acts) /\ plain w'.
Proof.
  unfold client_eoed. intros Pl H. destruct (p_usingEarlyData _); [|injection H as <- <-; split; [constructor|exact Pl]].
  inv_call H as w1 m M. apply new_framed in M; [|exact Pl]. destruct M as [F1 P1]. injection H as <- <-. split; [constructor; [exact F1|constructor]|exact P1].
Qed.
Lemma client_finished_framed P X o w k certs cr peer chains hm w' s acts retry : plain w ->
  client_wait_finished P X o w k certs cr peer chains hm = (w', Ok (s, acts, retry)) -> Forall framed (sent_of acts).
Proof.
  unfold client_wait_finished, done. intros Pl H. destruct (negb _); [discriminate|]. inv_pure H as v H1. destruct (negb _); [discriminate|].
  inv_call H as w1 eoed H2. apply eoed_framed in H2; [|exact Pl]. destruct H2 as [F1 P1]. inv_call H as w2 auth H3. apply client_auth_framed in H3; [|exact P1]. destruct H3 as [F2 P2].
  inv_call H as w3 finm H4. apply new_framed in H4; [|exact P2]. destruct H4 as [F3 P3]. injection H as _ _ <- _. rewrite !sent_app. apply Forall_app. split; [exact F1|].
  apply Forall_app. split; [exact F2|]. constructor; [exact F3|constructor].
Qed.

Lemma wstill_plain w0 w : wstill w0 w -> plain w.
Proof. intros (_ & _ & _ & _ & A & _). exact A. Qed.
Lemma server_start_framed P X o w hm w' s acts retry : hl_datagram (x_in (w_ctx w)) = false -> plain w -> server_start P X o w hm = (w', Ok (s, acts, retry)) -> Forall framed (sent_of acts).
Proof.
  intros Pi Pl H. apply server_start_ok in H. destruct H as (ch & exts & found & x & v & first & dhs & dh & chosen & suite & hrr & again & w1 & w2 & w3 & _ & _ & _ & _ & _ & _ & _ & _ & _ & _ & Hp & H). cbv zeta in H.
  pose proof (st_psk w P o w (set_exts ch exts) x (match first with Some (f, _) => Some f | None => None end) (still_refl _ Pi Pl)) as W. rewrite Hp in W. apply wstill_plain in W. cbn [fst] in W.
  destruct (pskModeNegotiation _ _ _) as [ud up]. destruct H as (_ & _ & Hr & _ & _ & H). destruct again.
  - destruct H as (_ & _ & ->). destruct hrr as [m|]; [|constructor]. cbn [sent_of]. constructor; [|constructor].
    apply server_retry_ok in Hr. destruct Hr as [_ Hr]. destruct (cf_requireCookie _); [|destruct Hr; discriminate]. destruct (cx_cookie x).
    + destruct Hr as [(t & m' & _ & [= <-] & _ & G)|(_ & ? & _)]; [|discriminate]. exact (proj1 (hrr_framed _ _ _ _ _ _ _ W G)).
    + destruct Hr as [? _]. discriminate.
  - destruct H as (_ & cert & scheme & proto & _ & _ & -> & _). constructor.
Qed.
Lemma server_auth_framed P X o w n ps w' ca acts : plain w -> server_auth P X o w n ps = (w', Ok (ca, acts)) -> Forall framed (sent_of acts) /\ plain w'.
Proof.
  unfold server_auth. intros Pl H. destruct (p_usingPSK _); [injection H as <- _ <-; split; [constructor|exact Pl]|].
  inv_call H as w1 [auth crs] H1. assert (Forall framed (sent_of crs) /\ plain w1) as [F1 P1].
  { destruct (cf_requireClientAuth _); [|injection H1 as <- _ <-; split; [constructor|exact Pl]]. inv_pure H1 as exts H2. inv_call H1 as w2 crm M. apply new_framed in M; [|exact Pl].
    destruct M as [F2 P2]. injection H1 as <- _ <-. split; [constructor; [exact F2|constructor]|exact P2]. }
  destruct (n_cert n) as [cert|]; [|discriminate]. inv_call H as w2 certm M. apply new_framed in M; [|exact P1]. destruct M as [F2 P2]. inv_pure H as cv H2.
  inv_call H as w3 cvm M. apply new_framed in M; [|exact P2]. destruct M as [F3 P3]. injection H as <- _ <-. split; [|exact P3]. rewrite sent_app. apply Forall_app. split; [exact F1|].
  constructor; [exact F2|]. constructor; [exact F3|constructor].
Qed.
Lemma server_negotiated_framed P X o w n w' s acts retry : plain w -> server_negotiated P X o w n = (w', Ok (s, acts, retry)) -> Forall framed (sent_of acts).
Proof.
  unfold server_negotiated, done. intros Pl H. destruct (o_random o); [|discriminate]. inv_pure H as l H1. inv_pure H as l2 H2.
  inv_call H as w1 shm M. apply new_framed in M; [|exact Pl]. destruct M as [F1 P1]. destruct (cipherSuiteMap _); [|discriminate].
  destruct (handshake_secrets _ _ _ _ _) as [[chs shs] master]. inv_pure H as l3 H3. inv_pure H as l4 H4.
  inv_call H as w2 eem M. apply new_framed in M; [|exact P1]. destruct M as [F2 P2]. inv_call H as w3 [ca auth] Ha. apply server_auth_framed in Ha; [|exact P2]. destruct Ha as [F3 P3].
  inv_call H as w4 finm M. apply new_framed in M; [|exact P3]. destruct M as [F4 P4].
  assert (forall a, match a with RekeyIn _ _ => True | _ => False end -> Forall framed (sent_of (([QueueHandshakeMessage shm; RekeyOut EpochHandshakeData (makeTrafficKeys P s0 shs); QueueHandshakeMessage eem] ++ auth ++
     [QueueHandshakeMessage finm; SendQueuedHandshake; RekeyOut EpochApplicationData (makeTrafficKeys P s0 (deriveSecret P s0 master labelServerApplicationTrafficSecret (hash_sum P s0 (hash_write w4 (hm_marshal finm)))))]) ++ [a]))) as K.
  { intros a Ha. rewrite !sent_app. destruct a; try contradiction. cbn [sent_of]. rewrite app_nil_r. cbn [app]. constructor; [exact F1|]. constructor; [exact F2|].
    apply Forall_app. split; [exact F3|]. constructor; [exact F4|constructor]. }
  destruct (p_usingEarlyData _); injection H as _ _ <- _; apply K; exact I.
Qed.
