(** What the steps of the two state machines leave alone in the handshake context over a stream: everything but the
    numbers of the messages, the timers and the version put in records. *)
From Verif Require Import Base Syntax Frame Record RecordSpec RecordProofs Timer Handshake DtlsSpec DtlsProofs DtlsProofs2 Machine MachineProofs Messages Pki Crypto Negotiation Cookie Client Server CtxProofs.

Definition same_layer (l l' : rlayer) : Prop :=
  l_frame l' = l_frame l /\ l_cached l' = l_cached l /\ l_in l' = l_in l /\ l_out l' = l_out l /\ exists v, l_core l' = setVersion (l_core l) v.
Lemma same_layer_refl l : same_layer l l.
Proof. do 4 (split; [reflexivity|]). exists (r_version (l_core l)). now destruct (l_core l). Qed.
Lemma same_layer_trans a b c : same_layer a b -> same_layer b c -> same_layer a c.
Proof.
  intros (A1 & A2 & A3 & A4 & v & A5) (B1 & B2 & B3 & B4 & v' & B5). do 4 (split; [congruence|]). exists v'. rewrite B5, A5. reflexivity.
Qed.
Definition still (x0 x : hctx) : Prop :=
  same_layer (hl_conn (x_in x0)) (hl_conn (x_in x)) /\ same_layer (hl_conn (x_out x0)) (hl_conn (x_out x)) /\
  hl_frame (x_in x) = hl_frame (x_in x0) /\ hl_datagram (x_in x) = false /\ hl_datagram (x_out x) = false /\
  hl_queued (x_in x) = hl_queued (x_in x0) /\ hl_queued (x_out x) = hl_queued (x_out x0) /\ hl_max (x_out x) = hl_max (x_out x0) /\ x_sent x = x_sent x0.
Lemma still_refl x : hl_datagram (x_in x) = false -> hl_datagram (x_out x) = false -> still x x.
Proof. intros A B. split; [apply same_layer_refl|]. split; [apply same_layer_refl|]. auto 10. Qed.
Lemma still_trans a b c : still a b -> still b c -> still a c.
Proof.
  intros (A1 & A2 & A3 & A4 & A5 & A6 & A7 & A8 & A9) (B1 & B2 & B3 & B4 & B5 & B6 & B7 & B8 & B9).
  split; [eapply same_layer_trans; eauto|]. split; [eapply same_layer_trans; eauto|]. repeat split; congruence.
Qed.
Lemma still_end_of_flight x0 x : still x0 x -> still x0 (receivedEndOfFlight x).
Proof. intros H. unfold receivedEndOfFlight. pose proof H as (_ & _ & _ & A & B & _). rewrite ?A, ?B. exact H. Qed.
Lemma still_final_flight x0 x : still x0 x -> all (still x0) (receivedFinalFlight x).
Proof. intros H. unfold receivedFinalFlight. pose proof H as (_ & _ & _ & A & B & _). rewrite ?A, ?B. exact H. Qed.

Definition wstill (w0 w : world) : Prop := still (w_ctx w0) (w_ctx w).
Lemma st_hash w0 w x : wstill w0 w -> wstill w0 (set_hash w x). Proof. auto. Qed.
Lemma st_write w0 w x : wstill w0 w -> wstill w0 (hash_write w x). Proof. auto. Qed.
Lemma st_cfg w0 w x : wstill w0 w -> wstill w0 (set_cfg w x). Proof. auto. Qed.
Lemma st_early w0 w x : wstill w0 w -> wstill w0 (set_early w x). Proof. auto. Qed.
Lemma st_eof w0 w : wstill w0 w -> wstill w0 (set_ctx w (receivedEndOfFlight (w_ctx w))).
Proof. intros H. now apply (still_end_of_flight (w_ctx w0)). Qed.
Lemma st_version w0 w v : wstill w0 w -> wstill w0 (ctx_setVersion w v).
Proof.
  intros (A1 & A2 & A3 & A4 & A5 & A6 & A7 & A8 & A9). unfold wstill, ctx_setVersion, layer_version. 
  split; [eapply same_layer_trans; [exact A1|]; do 4 (split; [reflexivity|]); now exists v|].
  split; [eapply same_layer_trans; [exact A2|]; do 4 (split; [reflexivity|]); now exists v|]. auto 10.
Qed.
#[export] Hint Resolve st_hash st_write st_cfg st_early st_eof st_version : st.
Lemma st_make w0 w b : wstill w0 w -> all (wstill w0) (makeMessage w b).
Proof.
  intros H. unfold makeMessage. destruct (body_marshal b) as [d|e| |]; exact H.
Qed.
Lemma st_new w0 w b : wstill w0 w -> all (wstill w0) (newMessage w b).
Proof. intros H. unfold newMessage. pose proof (st_make w0 w b H) as F. destruct (makeMessage w b). exact F. Qed.
#[export] Hint Resolve st_make st_new : st.
Ltac shint := solve [auto 10 with st].
Ltac swalk := repeat first [shint | known shint | walk1].

Lemma st_client_start w0 P o w st : wstill w0 w -> all (wstill w0) (client_start P o w st).
Proof. intros H. unfold client_start, done. swalk. Qed.
Lemma st_client_hrr w0 P o w st hm sh : wstill w0 w -> all (wstill w0) (client_hrr P o w st hm sh).
Proof. intros H. unfold client_hrr, done. swalk. Qed.
Lemma st_client_server_hello w0 P o w st hm sh : wstill w0 w -> all (wstill w0) (client_server_hello P o w st hm sh).
Proof. intros H. unfold client_server_hello, done. swalk. Qed.
#[export] Hint Resolve st_client_start st_client_hrr st_client_server_hello : st.
Lemma st_client_wait_sh w0 P o w st hm : wstill w0 w -> all (wstill w0) (client_wait_sh P o w st hm).
Proof. intros H. unfold client_wait_sh. swalk. Qed.
Lemma st_client_wait_ee w0 P o w k hm : wstill w0 w -> all (wstill w0) (client_wait_ee P o w k hm).
Proof. intros H. unfold client_wait_ee, done. swalk. Qed.
Lemma st_client_wait_cert_cr w0 X w k hm : wstill w0 w -> all (wstill w0) (client_wait_cert_cr X w k hm).
Proof. intros H. unfold client_wait_cert_cr, done. swalk. Qed.
Lemma st_client_wait_cert w0 X w k cr hm : wstill w0 w -> all (wstill w0) (client_wait_cert X w k cr hm).
Proof. intros H. unfold client_wait_cert, done. swalk. Qed.
Lemma st_client_wait_cv w0 P X o w k cert cr hm : wstill w0 w -> all (wstill w0) (client_wait_cv P X o w k cert cr hm).
Proof. intros H. unfold client_wait_cv, done. swalk. Qed.
Lemma st_client_eoed w0 P w k : wstill w0 w -> all (wstill w0) (client_eoed P w k).
Proof. intros H. unfold client_eoed. swalk. Qed.
Lemma st_client_auth w0 P X o w k certs cr : wstill w0 w -> all (wstill w0) (client_auth P X o w k certs cr).
Proof. intros H. unfold client_auth. swalk. Qed.
#[export] Hint Resolve st_client_wait_sh st_client_wait_ee st_client_wait_cert_cr st_client_wait_cert st_client_wait_cv st_client_eoed st_client_auth : st.
Lemma st_client_wait_finished w0 P X o w k certs cr peer chains hm :
  wstill w0 w -> all (wstill w0) (client_wait_finished P X o w k certs cr peer chains hm).
Proof. intros H. unfold client_wait_finished, done. swalk. Qed.
Lemma st_hrr w0 o w s ses t : wstill w0 w -> all (wstill w0) (generateHRR o w s ses t).
Proof. intros H. unfold generateHRR. swalk. Qed.
#[export] Hint Resolve st_client_wait_finished st_hrr : st.
Lemma st_psk w0 P o w ch x f : wstill w0 w -> all (wstill w0) (server_psk P o w ch x f).
Proof. intros H. unfold server_psk. swalk. Qed.
Lemma st_retry w0 P o w ch s hm t : wstill w0 w -> all (wstill w0) (server_retry P o w ch s hm t).
Proof. intros H. unfold server_retry. swalk. Qed.
#[export] Hint Resolve st_psk st_retry : st.
Lemma st_server_start w0 P X o w hm : wstill w0 w -> all (wstill w0) (server_start P X o w hm).
Proof. intros H. unfold server_start, done. swalk. Qed.
Lemma st_server_auth w0 P X o w n ps : wstill w0 w -> all (wstill w0) (server_auth P X o w n ps).
Proof. intros H. unfold server_auth. swalk. Qed.
#[export] Hint Resolve st_server_start st_server_auth : st.
Lemma st_server_negotiated w0 P X o w n : wstill w0 w -> all (wstill w0) (server_negotiated P X o w n).
Proof. intros H. unfold server_negotiated, done. swalk. Qed.
Lemma st_server_wait_eoed w0 P w k hm : wstill w0 w -> all (wstill w0) (server_wait_eoed P w k hm).
Proof. intros H. unfold server_wait_eoed, done. swalk. Qed.
#[export] Hint Resolve st_server_negotiated st_server_wait_eoed : st.
Lemma st_server_wait_flight2 w0 w k : wstill w0 w -> all (wstill w0) (server_wait_flight2 w k).
Proof. intros H. unfold server_wait_flight2, done. swalk. Qed.
Lemma st_server_wait_cert w0 X w k hm : wstill w0 w -> all (wstill w0) (server_wait_cert X w k hm).
Proof. intros H. unfold server_wait_cert, done. swalk. Qed.
Lemma st_server_wait_cv w0 P X o w k cert hm : wstill w0 w -> all (wstill w0) (server_wait_cv P X o w k cert hm).
Proof. intros H. unfold server_wait_cv, done. swalk. Qed.
Lemma st_server_wait_finished w0 P w k peer hm : wstill w0 w -> all (wstill w0) (server_wait_finished P w k peer hm).
Proof.
  intros H. unfold server_wait_finished, done. destruct (negb _); [shint|]. cbv zeta. apply all_bind; [shint|]. intros w1 v E H1.
  destruct (negb _); [shint|]. pose proof (still_final_flight _ (w_ctx (hash_write w1 (hm_marshal hm))) H1) as F.
  destruct (receivedFinalFlight _) as [x r]. apply all_bind; [exact F|]. intros. now apply all_pair.
Qed.
#[export] Hint Resolve st_server_wait_flight2 st_server_wait_cert st_server_wait_cv st_server_wait_finished : st.
Lemma st_key_update w0 P w c r : wstill w0 w -> wstill w0 (fst (fst (keyUpdate P w c r))).
Proof.
  intros H. unfold keyUpdate. destruct (sc_isClient c); pose proof (st_new w0 w (BKeyUpdate r) H) as F;
    destruct (newMessage w (BKeyUpdate r)); exact F.
Qed.
Lemma st_ticket w0 P o w c : wstill w0 w -> all (wstill w0) (newTicket P o w c).
Proof. intros H. unfold newTicket. swalk. Qed.
