(** What reading and writing handshake messages leaves alone in the handshake context: the keys, the kind of transport. *)
From Verif Require Import Base Syntax Frame Record RecordSpec RecordProofs Timer Handshake DtlsSpec DtlsProofs DtlsProofs2 Machine MachineProofs Messages Pki Crypto Negotiation Cookie Client Server.

Definition core_like (r r' : rcore) : Prop :=
  r_cipher r' = r_cipher r /\ r_dir r' = r_dir r /\ r_datagram r' = r_datagram r /\ r_readCiphers r' = r_readCiphers r /\
  List.length (r_heap r') = List.length (r_heap r) /\ forall i, same_keys (get_cs r i) (get_cs r' i).
Lemma core_like_refl r : core_like r r.
Proof. repeat split. Qed.
Lemma core_like_trans a b c : core_like a b -> core_like b c -> core_like a c.
Proof.
  intros (A1 & A2 & A3 & A4 & A5 & A6) (B1 & B2 & B3 & B4 & B5 & B6).
  do 5 (split; [congruence|]). intros i. eapply same_keys_trans; eauto.
Qed.
Lemma core_step_like r r' : core_step r r' -> core_like r r'.
Proof. unfold core_step, core_like. tauto. Qed.
Lemma core_like_version r v : core_like r (setVersion r v).
Proof. repeat split. Qed.
Lemma core_like_epoch r r' : core_like r r' -> rl_epoch r' = rl_epoch r.
Proof. intros (A & _ & _ & _ & _ & K). unfold rl_epoch. rewrite A. destruct (K (r_cipher r)) as (H1 & H2 & H3). congruence. Qed.

Definition in_core (x : hctx) : rcore := l_core (hl_conn (x_in x)).
Definition xframe (x0 x : hctx) : Prop :=
  core_like (in_core x0) (in_core x) /\ core_like (out_core x0) (out_core x) /\
  hl_datagram (x_in x) = hl_datagram (x_in x0) /\ hl_datagram (x_out x) = hl_datagram (x_out x0) /\
  hl_nonblocking (x_in x) = hl_nonblocking (x_in x0) /\ hl_max (x_out x) = hl_max (x_out x0).
Lemma xframe_refl x : xframe x x.
Proof. unfold xframe. auto 10 using core_like_refl. Qed.
Lemma xframe_trans a b c : xframe a b -> xframe b c -> xframe a c.
Proof.
  intros (A & B & C & D & F & G) (A' & B' & C' & D' & F' & G').
  split; [eapply core_like_trans; eauto|split; [eapply core_like_trans; eauto|]]. repeat split; congruence.
Qed.

Lemma like_write l pt i pad : core_like (l_core l) (l_core (fst (writeRecordWithPadding l pt i pad))).
Proof.
  unfold writeRecordWithPadding. destruct (protect _ _ _ _) as [[rec c']|e| |] eqn:Hp; cbn [fst]; try apply core_like_refl.
  apply core_step_like, core_step_set. now apply protect_inv in Hp as (_ & _ & _ & _ & Hi & _).
Qed.
Lemma like_handle r old h b : core_like r (fst (handleFrame r old h b)).
Proof.
  unfold handleFrame. destruct h as [|ty h]; [apply core_like_refl|]. destruct (negb _); [apply core_like_refl|]. cbv zeta.
  destruct (_ <? _); [apply core_like_refl|].
  match goal with |- context [match (do _ <- ?s; _) with _ => _ end] => destruct s as [[sq i]|e| |]; cbn [bind]; try apply core_like_refl end.
  match goal with |- context [match (do _ <- ?s; _) with _ => _ end] => destruct s as [pt|e| |]; cbn [bind]; try apply core_like_refl end.
  destruct (_ <? _); [apply core_like_refl|].
  destruct (incrementSequenceNumber (get_cs r i)) as [c'|e| |] eqn:Hi; cbn [bind fst]; try apply core_like_refl.
  now apply core_step_like, core_step_set.
Qed.
Lemma like_next l old : core_like (l_core l) (l_core (fst (nextRecord l old))).
Proof.
  unfold nextRecord. destruct (l_cached l); [apply core_like_refl|]. destruct (nextFrame _ _ _) as [[conn f] [[h b]|e| |]]; try apply core_like_refl.
  cbv zeta. cbn [l_core]. pose proof (like_handle (l_core l) old h b) as H. destruct (handleFrame _ _ _ _) as [core [pt|e| |]]; exact H.
Qed.
Lemma like_read l old : core_like (l_core l) (l_core (fst (readRecordE old l))).
Proof. unfold readRecordE. pose proof (like_next l old) as H. destruct (nextRecord l old). exact H. Qed.
Lemma like_peek l : core_like (l_core l) (l_core (fst (peekRecordType l))).
Proof. unfold peekRecordType. pose proof (like_next l false) as H. destruct (nextRecord l false). exact H. Qed.

(** ** Context *)

Lemma xframe_set_out x0 x h : xframe x0 x -> core_like (out_core x) (l_core (hl_conn h)) -> hl_datagram h = hl_datagram (x_out x) ->
  hl_max h = hl_max (x_out x) -> xframe x0 (set_out x h).
Proof.
  intros H L D M. apply (xframe_trans _ _ _ H). split; [apply core_like_refl|]. split; [exact L|]. cbn. auto.
Qed.
Lemma xframe_set_in x0 x h : xframe x0 x -> core_like (in_core x) (l_core (hl_conn h)) -> hl_datagram h = hl_datagram (x_in x) ->
  hl_nonblocking h = hl_nonblocking (x_in x) -> xframe x0 (set_in x h).
Proof.
  intros H L D M. apply (xframe_trans _ _ _ H). split; [exact L|]. split; [apply core_like_refl|]. cbn. auto.
Qed.
Lemma xframe_sent x0 x l : xframe x0 x -> xframe x0 (set_sent x l).
Proof. auto. Qed.
Lemma xframe_waiting x0 x l : xframe x0 x -> xframe x0 (set_waiting x l).
Proof. auto. Qed.
Lemma xframe_timers x0 x l : xframe x0 x -> xframe x0 (set_timers x l).
Proof. auto. Qed.
Lemma xframe_clear x0 x : xframe x0 x -> xframe x0 (clearQueued x).
Proof. auto. Qed.
Lemma xframe_arm x0 x n : xframe x0 x -> xframe x0 (armRetransmit n x).
Proof. auto. Qed.
#[export] Hint Resolve core_like_refl xframe_refl xframe_sent xframe_waiting xframe_timers xframe_clear xframe_arm : xframe.
Ltac xhint := solve [auto 10 with xframe].
Ltac xwalk := repeat first [xhint | known xhint | walk1].

Lemma xframe_out_conn x0 x l : xframe x0 x -> core_like (out_core x) (l_core l) -> xframe x0 (set_out x (set_conn (x_out x) l)).
Proof. intros H L. now apply xframe_set_out. Qed.
Lemma xframe_in_conn x0 x l : xframe x0 x -> core_like (in_core x) (l_core l) -> xframe x0 (set_in x (set_conn (x_in x) l)).
Proof. intros H L. now apply xframe_set_in. Qed.
Lemma xframe_in_frame x0 x f : xframe x0 x -> xframe x0 (set_in x (set_frame (x_in x) f)).
Proof. intros H. apply xframe_set_in; auto with xframe. Qed.
Lemma xframe_in_queue x0 x p : xframe x0 x -> all (xframe x0) (in_queue x p).
Proof. intros H. apply all_pair, xframe_set_in; auto with xframe. Qed.
#[export] Hint Resolve xframe_in_queue xframe_in_frame : xframe.

Lemma xframe_fragment x0 x m a b : xframe x0 x -> all (xframe x0) (writeFragment x m a b).
Proof.
  intros H. unfold writeFragment. destruct (_ <=? _)%nat; [xwalk|]. cbv zeta. destruct (fragmentAcked _ _ _ _); [xwalk|].
  destruct (hl_datagram (x_out x)).
  - destruct (hm_cipher m); [|xwalk].
    match goal with |- context [writeRecordWithPadding ?l ?p ?i ?n] => pose proof (like_write l p i n) as L; destruct (writeRecordWithPadding l p i n) as [c r] end.
    apply all_pair. apply (xframe_out_conn x0 (set_sent x _)); auto with xframe.
  - match goal with |- context [writeRecord ?l ?p] => pose proof (like_write l p (r_cipher (l_core l)) 0) as L; fold (writeRecord l p) in L; destruct (writeRecord l p) as [c r] end.
    apply all_pair. now apply xframe_out_conn.
Qed.
#[export] Hint Resolve xframe_fragment : xframe.
Lemma xframe_message_loop x0 fuel : forall x m a b, xframe x0 x -> all (xframe x0) (writeMessage_loop fuel x m a b).
Proof. induction fuel as [|f IH]; intros x m a b H; cbn [writeMessage_loop]; xwalk. Qed.
#[export] Hint Resolve xframe_message_loop : xframe.
Lemma xframe_message x0 x m : xframe x0 x -> all (xframe x0) (writeMessage x m).
Proof. intros H. unfold writeMessage. xwalk. Qed.
#[export] Hint Resolve xframe_message : xframe.
Lemma xframe_messages x0 ms : forall x, xframe x0 x -> all (xframe x0) (writeMessages x ms).
Proof. induction ms as [|m ms IH]; intros x H; cbn [writeMessages]; xwalk. Qed.
#[export] Hint Resolve xframe_messages : xframe.
Lemma xframe_queue x0 x m : xframe x0 x -> all (xframe x0) (queueMessage x m).
Proof.
  intros H. unfold queueMessage. cbv zeta. destruct (hl_datagram (x_out x)); [|xwalk].
  apply all_pair, xframe_set_out; auto with xframe.
Qed.
Lemma xframe_send x0 x : xframe x0 x -> all (xframe x0) (sendQueued x).
Proof. intros H. unfold sendQueued. known xhint. apply all_pair. destruct (hl_datagram _); xwalk. Qed.
#[export] Hint Resolve xframe_queue xframe_send : xframe.
Lemma xframe_retransmit x0 n x : xframe x0 x -> all (xframe x0) (handshakeRetransmit n x).
Proof. intros H. unfold handshakeRetransmit. xwalk. Qed.
Lemma xframe_send_ack x0 x : xframe x0 x -> all (xframe x0) (sendAck x).
Proof.
  intros H. unfold sendAck. cbv zeta. destruct (marshal _ _); try xhint.
  match goal with |- context [writeRecord ?l ?p] => pose proof (like_write l p (r_cipher (l_core l)) 0) as L; fold (writeRecord l p) in L; destruct (writeRecord l p) as [c r] end.
  apply all_pair. now apply xframe_out_conn.
Qed.
#[export] Hint Resolve xframe_retransmit xframe_send_ack : xframe.
Lemma xframe_process_ack x0 n x d : xframe x0 x -> all (xframe x0) (processAck n x d).
Proof. intros H. unfold processAck. xwalk. Qed.
#[export] Hint Resolve xframe_process_ack : xframe.
Lemma xframe_received x0 n x : xframe x0 x -> xframe x0 (receivedHandshakeMessage n x).
Proof.
  intros H. unfold receivedHandshakeMessage. destruct (negb _); [xhint|]. cbv zeta.
  destruct (x_waiting x); destruct (getTimer _ _); xhint.
Qed.
Lemma xframe_end_of_flight x0 x : xframe x0 x -> xframe x0 (receivedEndOfFlight x).
Proof.
  intros H. unfold receivedEndOfFlight. destruct (negb _); [xhint|]. cbv zeta.
  apply xframe_timers, xframe_waiting, xframe_set_in; auto with xframe.
Qed.
#[export] Hint Resolve xframe_received xframe_end_of_flight : xframe.
Lemma xframe_final_flight x0 x : xframe x0 x -> all (xframe x0) (receivedFinalFlight x).
Proof.
  intros H. unfold receivedFinalFlight. destruct (negb _); [xhint|]. cbv zeta.
  match goal with |- context [sendAck ?y] => assert (all (xframe x0) (sendAck y)) as F by xhint; destruct (sendAck y) as [x1 [u|e| |]] end; exact F.
Qed.
Lemma xframe_fire x0 n c x : xframe x0 x -> all (xframe x0) (fire n c x).
Proof. intros H. destruct c; cbn [fire]; xhint. Qed.
#[export] Hint Resolve xframe_final_flight xframe_fire : xframe.
Lemma xframe_timers_run x0 g n x : xframe x0 x -> all (xframe x0) (checkTimers g n x).
Proof.
  unfold checkTimers, check. generalize (ts_cur (x_timers x)), (List.length (slice (x_timers x))), 0%nat. intros a0 todo.
  revert x. induction todo as [|todo IH]; intros x i H; cbn [check_loop]; [xhint|].
  destruct (nth i _ None) as [id|]; [|xhint]. cbv zeta. destruct (_ <? _); [|xhint].
  destruct (reappend _ _ _) as [s|e| |]; try xhint. destruct (tm_cb _) as [cb|]; [|apply IH; xhint].
  match goal with |- context [fire n cb ?y] => assert (all (xframe x0) (fire n cb y)) as F by xhint; destruct (fire n cb y) as [x1 [u|e| |]] end; try exact F.
  apply IH. exact F.
Qed.
#[export] Hint Resolve xframe_timers_run : xframe.
Lemma xframe_read_record x0 n x : xframe x0 x -> all (xframe x0) (hl_readRecord n x).
Proof.
  intros H. unfold hl_readRecord. cbv zeta. pose proof (like_read (hl_conn (x_in x)) (hl_datagram (x_in x))) as L.
  destruct (readRecordE _ _) as [conn r]. cbn [fst] in L. pose proof (xframe_in_conn _ _ _ H L) as H'.
  destruct r as [pt|e| |]; try exact H'. destruct (negb _); [exact H'|]. destruct (Byte.eqb _ rtAck).
  - destruct (negb _); [exact H'|]. xhint.
  - destruct (Byte.eqb _ rtAlert); [destruct (p_fragment pt) as [|a [|b l]]; exact H'|].
    destruct (negb _); [destruct (_ || _); exact H'|]. apply all_pair. apply xframe_set_in; auto with xframe.
Qed.
#[export] Hint Resolve xframe_read_record : xframe.
Lemma xframe_read_frame x0 fuel : forall n x, xframe x0 x -> all (xframe x0) (readFrame_loop fuel n x).
Proof.
  induction fuel as [|f IH]; intros n x H; cbn [readFrame_loop]; [xhint|]. cbv zeta.
  assert (forall x1, xframe x0 x1 -> all (xframe x0) (let h := x_in x1 in
        let '(f0, r) := process (handshakeFraming (hl_datagram h)) (hl_frame h) in
        let x2 := set_in x1 (set_frame h f0) in
        match r with
        | Err e => if negb (hl_nonblocking (x_in x)) && is_wb e then readFrame_loop f n x2 else (x2, Err e)
        | _ => (x2, r)
        end)) as Hstep.
  { intros x1 H1. cbv zeta. destruct (process _ _) as [f0 r]. destruct r as [hb|e| |]; try xhint. destruct (_ && _); xhint. }
  cbv zeta in Hstep. destruct (_ <? _)%nat; [|now apply Hstep].
  assert (all (xframe x0) (hl_readRecord n x)) as F by xhint. destruct (hl_readRecord n x) as [x1 [u|e| |]]; try exact F.
  - now apply Hstep.
  - destruct (_ && _); [now apply Hstep|exact F].
Qed.
#[export] Hint Resolve xframe_read_frame : xframe.
Lemma xframe_new_fragment x0 n x m : xframe x0 x -> all (xframe x0) (newFragmentReceived n x m).
Proof. intros H. unfold newFragmentReceived. xwalk. Qed.
#[export] Hint Resolve xframe_new_fragment : xframe.
Lemma xframe_read_message x0 fuel n x : xframe x0 x -> all (xframe x0) (readMessage fuel n x).
Proof. intros H. unfold readMessage, checkMessageAvailable. xwalk. Qed.
#[export] Hint Resolve xframe_read_message : xframe.
Lemma xframe_hr_loop x0 fuel : forall i n x, xframe x0 x -> all (xframe x0) (hr_read_loop fuel i n x).
Proof.
  induction fuel as [|f IH]; intros i n x H; cbn [hr_read_loop]; [xhint|].
  assert (all (xframe x0) (readMessage i n x)) as F by xhint. destruct (readMessage i n x) as [x1 [[m|]|e| |]]; try exact F. now apply IH.
Qed.

(** ** The state machines *)

Definition wxframe (w0 w : world) : Prop := xframe (w_ctx w0) (w_ctx w).
Lemma wx_refl w : wxframe w w. Proof. apply xframe_refl. Qed.
Lemma wx_hash w0 w x : wxframe w0 w -> wxframe w0 (set_hash w x). Proof. auto. Qed.
Lemma wx_write w0 w x : wxframe w0 w -> wxframe w0 (hash_write w x). Proof. auto. Qed.
Lemma wx_cfg w0 w x : wxframe w0 w -> wxframe w0 (set_cfg w x). Proof. auto. Qed.
Lemma wx_early w0 w x : wxframe w0 w -> wxframe w0 (set_early w x). Proof. auto. Qed.
Lemma wx_ctx w0 w x : xframe (w_ctx w0) x -> wxframe w0 (set_ctx w x). Proof. auto. Qed.
Lemma wx_eof w0 w : wxframe w0 w -> wxframe w0 (set_ctx w (receivedEndOfFlight (w_ctx w))).
Proof. intros H. apply wx_ctx. now apply xframe_end_of_flight. Qed.
Lemma wx_version w0 w v : wxframe w0 w -> wxframe w0 (ctx_setVersion w v).
Proof.
  intros H. apply (xframe_trans _ _ _ H). unfold ctx_setVersion, layer_version. cbn.
  split; [apply core_like_version|]. split; [apply core_like_version|]. repeat split.
Qed.
#[export] Hint Resolve wx_refl wx_hash wx_write wx_cfg wx_early wx_eof wx_version : wx.
Lemma wx_make w0 w b : wxframe w0 w -> all (wxframe w0) (makeMessage w b).
Proof.
  intros H. unfold makeMessage. destruct (body_marshal b) as [d|e| |]; exact H.
Qed.
Lemma wx_new w0 w b : wxframe w0 w -> all (wxframe w0) (newMessage w b).
Proof. intros H. unfold newMessage. pose proof (wx_make w0 w b H) as F. destruct (makeMessage w b). exact F. Qed.
Lemma wx_hr w0 fuel o w : wxframe w0 w -> all (wxframe w0) (hr_read fuel o w).
Proof.
  intros H. unfold hr_read. pose proof (xframe_hr_loop _ fuel fuel (o_ms o) _ H) as F. destruct (hr_read_loop _ _ _ _). exact F.
Qed.
#[export] Hint Resolve wx_make wx_new wx_hr : wx.
Ltac whint := solve [auto 10 with wx].
Ltac wwalk := repeat first [whint | known whint | walk1].

Lemma wx_client_start w0 P o w st : wxframe w0 w -> all (wxframe w0) (client_start P o w st).
Proof. intros H. unfold client_start, done. wwalk. Qed.
Lemma wx_client_hrr w0 P o w st hm sh : wxframe w0 w -> all (wxframe w0) (client_hrr P o w st hm sh).
Proof. intros H. unfold client_hrr, done. wwalk. Qed.
Lemma wx_client_server_hello w0 P o w st hm sh : wxframe w0 w -> all (wxframe w0) (client_server_hello P o w st hm sh).
Proof. intros H. unfold client_server_hello, done. wwalk. Qed.
#[export] Hint Resolve wx_client_start wx_client_hrr wx_client_server_hello : wx.
Lemma wx_client_wait_sh w0 P o w st hm : wxframe w0 w -> all (wxframe w0) (client_wait_sh P o w st hm).
Proof. intros H. unfold client_wait_sh. wwalk. Qed.
Lemma wx_client_wait_ee w0 P o w k hm : wxframe w0 w -> all (wxframe w0) (client_wait_ee P o w k hm).
Proof. intros H. unfold client_wait_ee, done. wwalk. Qed.
Lemma wx_client_wait_cert_cr w0 X w k hm : wxframe w0 w -> all (wxframe w0) (client_wait_cert_cr X w k hm).
Proof. intros H. unfold client_wait_cert_cr, done. wwalk. Qed.
Lemma wx_client_wait_cert w0 X w k cr hm : wxframe w0 w -> all (wxframe w0) (client_wait_cert X w k cr hm).
Proof. intros H. unfold client_wait_cert, done. wwalk. Qed.
Lemma wx_client_wait_cv w0 P X o w k cert cr hm : wxframe w0 w -> all (wxframe w0) (client_wait_cv P X o w k cert cr hm).
Proof. intros H. unfold client_wait_cv, done. wwalk. Qed.
Lemma wx_client_eoed w0 P w k : wxframe w0 w -> all (wxframe w0) (client_eoed P w k).
Proof. intros H. unfold client_eoed. wwalk. Qed.
Lemma wx_client_auth w0 P X o w k certs cr : wxframe w0 w -> all (wxframe w0) (client_auth P X o w k certs cr).
Proof. intros H. unfold client_auth. wwalk. Qed.
#[export] Hint Resolve wx_client_wait_sh wx_client_wait_ee wx_client_wait_cert_cr wx_client_wait_cert wx_client_wait_cv wx_client_eoed wx_client_auth : wx.
Lemma wx_client_wait_finished w0 P X o w k certs cr peer chains hm :
  wxframe w0 w -> all (wxframe w0) (client_wait_finished P X o w k certs cr peer chains hm).
Proof. intros H. unfold client_wait_finished, done. wwalk. Qed.
Lemma wx_hrr w0 o w s ses t : wxframe w0 w -> all (wxframe w0) (generateHRR o w s ses t).
Proof. intros H. unfold generateHRR. wwalk. Qed.
#[export] Hint Resolve wx_client_wait_finished wx_hrr : wx.
Lemma wx_psk w0 P o w ch x f : wxframe w0 w -> all (wxframe w0) (server_psk P o w ch x f).
Proof. intros H. unfold server_psk. wwalk. Qed.
Lemma wx_retry w0 P o w ch s hm t : wxframe w0 w -> all (wxframe w0) (server_retry P o w ch s hm t).
Proof. intros H. unfold server_retry. wwalk. Qed.
#[export] Hint Resolve wx_psk wx_retry : wx.
Lemma wx_server_start w0 P X o w hm : wxframe w0 w -> all (wxframe w0) (server_start P X o w hm).
Proof. intros H. unfold server_start, done. wwalk. Qed.
Lemma wx_server_auth w0 P X o w n ps : wxframe w0 w -> all (wxframe w0) (server_auth P X o w n ps).
Proof. intros H. unfold server_auth. wwalk. Qed.
#[export] Hint Resolve wx_server_start wx_server_auth : wx.
Lemma wx_server_negotiated w0 P X o w n : wxframe w0 w -> all (wxframe w0) (server_negotiated P X o w n).
Proof. intros H. unfold server_negotiated, done. wwalk. Qed.
Lemma wx_server_wait_eoed w0 P w k hm : wxframe w0 w -> all (wxframe w0) (server_wait_eoed P w k hm).
Proof. intros H. unfold server_wait_eoed, done. wwalk. Qed.
Lemma wx_in_conn w0 w l : wxframe w0 w -> core_like (l_core (in_conn w)) (l_core l) -> wxframe w0 (set_in_conn w l).
Proof. intros H L. unfold set_in_conn. apply wx_ctx, xframe_in_conn; auto. Qed.
Lemma wx_peek w0 fuel : forall w, wxframe w0 w -> all (wxframe w0) (peek fuel w).
Proof.
  induction fuel as [|f IH]; intros w H; cbn [peek]; [whint|]. pose proof (like_peek (in_conn w)) as L.
  destruct (peekRecordType (in_conn w)) as [c r]. cbn [fst] in L. pose proof (wx_in_conn _ _ _ H L) as H'.
  destruct r as [t|e| |]; try exact H'. cbv zeta. destruct (_ && _); [now apply IH|exact H'].
Qed.
#[export] Hint Resolve wx_server_negotiated wx_server_wait_eoed wx_peek : wx.
Lemma wx_read_early w0 fuel : forall w, wxframe w0 w -> all (wxframe w0) (read_early fuel w).
Proof.
  induction fuel as [|f IH]; intros w H; cbn [read_early]; [whint|]. destruct (negb _); [whint|].
  assert (all (wxframe w0) (peek (S f) w)) as F by whint. destruct (peek (S f) w) as [w1 [t|e| |]]; try exact F.
  destruct (negb _); [exact F|]. pose proof (like_read (in_conn w1) false) as L. fold (readRecord (in_conn w1)) in L.
  destruct (readRecord (in_conn w1)) as [c r]. cbn [fst] in L. pose proof (wx_in_conn _ _ _ F L) as H'.
  destruct r as [pt|e| |]; try exact H'. apply IH. auto with wx.
Qed.
Lemma wx_read_past w0 fuel : forall w nx, wxframe w0 w -> all (wxframe w0) (server_read_past fuel w nx).
Proof.
  induction fuel as [|f IH]; intros w nx H; cbn [server_read_past]; [whint|]. unfold done. wwalk.
Qed.
Lemma wx_server_wait_flight2 w0 w k : wxframe w0 w -> all (wxframe w0) (server_wait_flight2 w k).
Proof. intros H. unfold server_wait_flight2, done. wwalk. Qed.
Lemma wx_server_wait_cert w0 X w k hm : wxframe w0 w -> all (wxframe w0) (server_wait_cert X w k hm).
Proof. intros H. unfold server_wait_cert, done. wwalk. Qed.
Lemma wx_server_wait_cv w0 P X o w k cert hm : wxframe w0 w -> all (wxframe w0) (server_wait_cv P X o w k cert hm).
Proof. intros H. unfold server_wait_cv, done. wwalk. Qed.
Lemma wx_server_wait_finished w0 P w k peer hm : wxframe w0 w -> all (wxframe w0) (server_wait_finished P w k peer hm).
Proof.
  intros H. unfold server_wait_finished, done. destruct (negb _); [whint|]. cbv zeta. apply all_bind; [whint|]. intros w1 v E H1.
  destruct (negb _); [whint|]. pose proof (xframe_final_flight _ (w_ctx (hash_write w1 (hm_marshal hm))) H1) as F.
  destruct (receivedFinalFlight _) as [x r]. apply all_bind; [exact F|]. intros. now apply all_pair.
Qed.
#[export] Hint Resolve wx_read_early wx_read_past wx_server_wait_flight2 wx_server_wait_cert wx_server_wait_cv wx_server_wait_finished : wx.
Lemma wx_next w0 P X o fuel w s : wxframe w0 w -> all (wxframe w0) (next P X o fuel w s).
Proof. intros H. destruct s; cbn [next]; unfold done; wwalk. Qed.
Lemma wx_key_update w0 P w c r : wxframe w0 w -> wxframe w0 (fst (fst (keyUpdate P w c r))).
Proof.
  intros H. unfold keyUpdate. destruct (sc_isClient c); pose proof (wx_new w0 w (BKeyUpdate r) H) as F;
    destruct (newMessage w (BKeyUpdate r)); exact F.
Qed.
Lemma wx_ticket w0 P o w c : wxframe w0 w -> all (wxframe w0) (newTicket P o w c).
Proof. intros H. unfold newTicket. wwalk. Qed.
Lemma wx_process w0 P X o w c hm : wxframe w0 w -> all (wxframe w0) (processMessage P X o w c hm).
Proof.
  intros H. unfold processMessage. apply all_bind; [exact H|]. intros w' b E H'. destruct b; try exact H'.
  - destruct (negb _); exact H'.
  - destruct (negb (sc_isClient c)); cbv zeta;
    (match goal with |- context [?q =? KeyUpdateRequested] => destruct (q =? KeyUpdateRequested); [|exact H'] end);
    match goal with |- context [keyUpdate P w' ?c0 ?r] => pose proof (wx_key_update w0 P w' c0 r H') as F;
      destruct (keyUpdate P w' c0 r) as [[w1 c1] r1]; exact F end.
Qed.
