(** The keys in the record layers when a handshake is complete. *)
From Verif Require Import Base Syntax Frame Record RecordSpec RecordProofs Timer Handshake Crypto Messages Pki Negotiation Machine Cookie Client Server MachineProofs CtxProofs StepProofs Conn ConnSpec ConnProofs.
From Verif Require Import DtlsSpec RunSpec RunProofs AgreeSpec.

(** ** Keys and actions *)

Lemma like_uses E s r r' sec : core_like r r' -> uses_key E s r sec -> uses_key E s r' sec.
Proof.
  intros (A & _ & _ & _ & _ & B) [H1 H2]. unfold uses_key, cur in *. rewrite A. destruct (B (r_cipher r)) as (B1 & B2 & B3). split; congruence.
Qed.
Lemma rekey_uses E s r e sec : uses_key E s (rekey r e (v_gcm E (k_key (makeTrafficKeys (v_prims E) s sec))) (k_iv (makeTrafficKeys (v_prims E) s sec))) sec.
Proof. unfold uses_key, cur, get_cs. cbn [rekey r_heap r_cipher]. rewrite app_nth2, Nat.sub_diag by apply Nat.le_refl. split; reflexivity. Qed.

(** What leaves the keys of both layers alone. *)
Definition ocore (c : conn) : rcore := l_core (c_out c).
Definition icore (c : conn) : rcore := l_core (c_in c).
Definition olike (c c' : conn) : Prop := core_like (ocore c) (ocore c').
Definition ilike (c c' : conn) : Prop := core_like (icore c) (icore c').
Definition still_out (a : action) : Prop := match a with RekeyOut _ _ | ResetOut _ => False | _ => True end.
Definition still_in (a : action) : Prop := match a with RekeyIn _ _ => False | _ => True end.
Lemma olike_refl c : olike c c. Proof. apply core_like_refl. Qed.
Lemma ilike_refl c : ilike c c. Proof. apply core_like_refl. Qed.
Lemma both_ctx c x : xframe (c_ctx c) x -> olike c (upd_ctx c x) /\ ilike c (upd_ctx c x).
Proof. intros (A & B & _). split; [exact B|exact A]. Qed.
Lemma both_alert c a : all (fun c' => olike c c' /\ ilike c c') (sendAlert c a).
Proof.
  unfold sendAlert. set (pt := mkPt _ _ _ _). unfold writeRecord. pose proof (like_write (c_out c) pt (r_cipher (l_core (c_out c))) 0) as L.
  destruct (writeRecordWithPadding _ _ _ _) as [l r]. cbn [fst] in L.
  assert (olike c (upd_out c l) /\ ilike c (upd_out c l)) as K by (split; [exact L|apply core_like_refl]).
  destruct r; try exact K; apply all_pair; match goal with |- context [if ?b then _ else _] => destruct b end; exact K.
Qed.
Lemma both_fail_alert {A} c a : all (fun c' => olike c c' /\ ilike c c') (fail_alert (A := A) c a).
Proof. unfold fail_alert. apply all_bind; [apply both_alert|]. intros c1 u _ H. exact H. Qed.
Lemma both_action E now c a : all (fun c' => (still_out a -> olike c c') /\ (still_in a -> ilike c c')) (takeAction E now c a).
Proof.
  destruct a; cbn [takeAction still_out still_in].
  - pose proof (xframe_queue (c_ctx c) (c_ctx c) m (xframe_refl _)) as X. destruct (queueMessage _ _) as [x r]. apply all_pair.
    apply both_ctx in X. tauto.
  - pose proof (xframe_send (c_ctx c) (c_ctx c) (xframe_refl _)) as X. destruct (sendQueued _) as [x r]. unfold all in X. cbn [fst] in X.
    pose proof (both_ctx c x X) as K. apply all_bind; [apply all_pair; tauto|]. intros s u Eq _. apply pair_ok in Eq. destruct Eq as [-> _].
    destruct (cf_useDTLS _); [|apply all_pair; tauto]. apply all_pair.
    pose proof (xframe_arm (c_ctx c) x now X) as X2. apply (both_ctx c) in X2. change (upd_ctx (upd_ctx c x) ?y) with (upd_ctx c y). cbn [c_ctx upd_ctx] in *. tauto.
  - destruct (f_rem _); [|apply all_pair; split; auto using olike_refl, ilike_refl]. destruct (layer_rekey _ _ _ _) as [l r]. apply all_pair. split; [intros _; exact (core_like_refl _)|contradiction].
  - destruct (layer_rekey _ _ _ _) as [l r]. apply all_pair. split; [contradiction|intros _; exact (core_like_refl _)].
  - apply all_pair. split; [contradiction|intros _; exact (core_like_refl _)].
  - destruct (cf_psks _); apply all_pair; split; intros _; exact (core_like_refl _).
Qed.
Lemma out_actions E now l : Forall still_out l -> forall c, all (olike c) (takeActions E now c l).
Proof.
  induction 1 as [|a l S _ IH]; intros c; cbn [takeActions]; [apply olike_refl|]. apply all_bind.
  - eapply all_imp; [|apply both_action]. cbv beta. intros c' [A _]. auto.
  - intros c1 u _ H1. eapply all_imp; [|apply IH]. intros c' H. eapply core_like_trans; eauto.
Qed.
Lemma in_actions E now l : Forall still_in l -> forall c, all (ilike c) (takeActions E now c l).
Proof.
  induction 1 as [|a l S _ IH]; intros c; cbn [takeActions]; [apply ilike_refl|]. apply all_bind.
  - eapply all_imp; [|apply both_action]. cbv beta. intros c' [_ A]. auto.
  - intros c1 u _ H1. eapply all_imp; [|apply IH]. intros c' H. eapply core_like_trans; eauto.
Qed.
(** A key that is installed, with nothing after it that changes it. *)
Lemma actions_app E now l1 : forall c l2 c', takeActions E now c (l1 ++ l2) = (c', Ok tt) -> exists c1, takeActions E now c l1 = (c1, Ok tt) /\ takeActions E now c1 l2 = (c', Ok tt).
Proof.
  induction l1 as [|a l1 IH]; intros c l2 c' H; [exists c; split; [reflexivity|exact H]|]. cbn [app takeActions] in *. destruct (takeAction E now c a) as [c1 [u|e| |]]; try discriminate.
  cbn [sbind] in *. apply IH. exact H.
Qed.
Lemma out_installed E now c l1 e s sec l2 c' : Forall still_out l2 ->
  takeActions E now c (l1 ++ RekeyOut e (makeTrafficKeys (v_prims E) s sec) :: l2) = (c', Ok tt) -> uses_key E s (ocore c') sec.
Proof.
  intros S H. apply actions_app in H. destruct H as (c1 & _ & H). cbn [takeActions] in H. inv_call H as c2 u H2. cbn [takeAction] in H2. unfold layer_rekey in H2.
  destruct (cipherSuiteMap _); [|discriminate]. destruct (_ || _)%bool; [|discriminate]. pose proof (out_actions E now l2 S c2) as L. rewrite H in L. injection H2 as <-. eapply like_uses; [exact L|]. apply rekey_uses.
Qed.
Lemma in_installed E now c l1 e s sec l2 c' : Forall still_in l2 ->
  takeActions E now c (l1 ++ RekeyIn e (makeTrafficKeys (v_prims E) s sec) :: l2) = (c', Ok tt) -> uses_key E s (icore c') sec.
Proof.
  intros S H. apply actions_app in H. destruct H as (c1 & _ & H). cbn [takeActions] in H. inv_call H as c2 u H2. cbn [takeAction] in H2.
  destruct (f_rem _); [|discriminate]. unfold layer_rekey in H2.
  destruct (cipherSuiteMap _); [|discriminate]. destruct (_ || _)%bool; [|discriminate]. pose proof (in_actions E now l2 S c2) as L. rewrite H in L. injection H2 as <-. eapply like_uses; [exact L|]. apply rekey_uses.
Qed.

(** ** A server that has sent its flight writes with its application key *)

Fixpoint flight_sent (s : hstate) : option skeys :=
  match s with
  | SReadPastEarlyData nx => flight_sent nx
  | SWaitEOED k | SWaitFlight2 k | SWaitCert k | SWaitCV k _ | SWaitFinished k _ => Some k
  | _ => None
  end.
Definition past_ok (s : hstate) : Prop := match s with SReadPastEarlyData nx => flight_sent nx <> None | _ => True end.
Definition out_key (E : env) (c : conn) : Prop :=
  forall s, c_hState c = Some s -> past_ok s /\ forall k, flight_sent s = Some k -> uses_key E (sk_suite k) (ocore c) (sk_sts k).

Lemma only_still l : only_messages l -> Forall still_out l /\ Forall still_in l.
Proof. intros H. split; (eapply Forall_impl; [|exact H]); now intros a [m ->]. Qed.
(** A step keeps the key of the output or installs the one of the application. *)
Lemma next_out E o fuel w s w' s' acts retry k : next (v_prims E) (v_pki E) o fuel w s = (w', Ok (s', acts, retry)) -> flight_sent s' = Some k ->
  (flight_sent s = Some k /\ Forall still_out acts) \/
  exists l1 e l2, acts = l1 ++ RekeyOut e (makeTrafficKeys (v_prims E) (sk_suite k) (sk_sts k)) :: l2 /\ Forall still_out l2.
Proof.
  destruct s; cbn [next flight_sent].
  - intros H. apply client_start_ok in H. destruct H as (ws & ch & sending & k0 & -> & _). discriminate.
  - intros H. inv_call H as w1 hm H1. apply client_wait_sh_ok in H. destruct H as (sh & n & vs & _ & _ & _ & _ & _ & [[_ H]|[_ H]]).
    + apply client_hrr_ok in H. destruct H as (c & ps & exts & _ & _ & R1 & R2 & _). intros K. subst. discriminate.
    + apply client_server_hello_ok in H. destruct H as (? & ? & ? & ? & ps & ? & _ & _ & _ & _ & _ & H). cbv zeta in H. destruct (handshake_secrets _ _ _ _ _) as [[chs shs] ms].
      destruct H as (-> & _ & _). discriminate.
  - intros H. inv_call H as w1 hm H1. apply client_wait_ee_ok in H. destruct H as (? & ? & ? & ? & _ & _ & _ & _ & _ & _ & -> & _). destruct (p_usingPSK _); discriminate.
  - intros H. inv_call H as w1 hm H1. apply client_wait_cert_cr_ok in H. destruct H as (_ & _ & _ & [(? & _ & _ & ->)|(? & _ & _ & _ & ->)]); discriminate.
  - intros H. inv_call H as w1 hm H1. apply client_wait_cert_ok in H. destruct H as (_ & _ & _ & ? & _ & _ & ->). discriminate.
  - intros H. inv_call H as w1 hm H1. apply client_wait_cv_ok in H. destruct H as (_ & _ & _ & ? & ? & ? & ? & _ & _ & _ & _ & _ & _ & ->). discriminate.
  - intros H. inv_call H as w1 hm H1. apply client_wait_finished_ok in H. destruct H as (w3 & w4 & eoed & auth & finm & _ & _ & _ & _ & _ & _ & _ & _ & -> & _). discriminate.
  - intros H. inv_call H as w1 hm H1. apply server_start_ok in H.
    destruct H as (ch & exts & found & x & v & first & dhs & dh & chosen & suite & hrr & again & w3 & w4 & w5 & _ & _ & _ & _ & _ & _ & _ & _ & _ & _ & _ & H).
    cbv zeta in H. destruct (pskModeNegotiation _ _ _) as [ud up]. destruct H as (_ & _ & _ & _ & _ & H). destruct again.
    + destruct H as (-> & _ & _). discriminate.
    + destruct H as (_ & cert & scheme & proto & _ & _ & _ & _ & H). destruct (earlyDataNegotiation _ _ _). subst s'. discriminate.
  - intros H. apply server_negotiated_ok in H. destruct H as (random & hexts & eexts & shm & ps & w3 & w4 & eem & finm & auth & ca & _ & _ & _ & _ & _ & H).
    cbv zeta in H. destruct (handshake_secrets _ _ _ _ _) as [[chs shs] ms]. destruct H as (_ & _ & _ & _ & _ & _ & _ & _ & _ & _ & -> & -> & _).
    match goal with |- context [SWaitEOED ?x] => set (kk := x) end. intros K. right. assert (k = kk) as -> by (destruct (p_usingEarlyData _); [cbn in K; congruence|destruct (p_rejectedEarlyData _); cbn in K; congruence]).
    eexists ([_; _; _] ++ auth ++ [_; _]), _, [_]. split; [cbn [app]; rewrite <- app_assoc; reflexivity|]. constructor; [|constructor]. destruct (p_usingEarlyData _); exact I.
  - intros H. inv_call H as w1 u H1. inv_call H as w2 hm H2. apply server_wait_eoed_ok in H. destruct H as (_ & _ & _ & _ & -> & ->). intros K. left. split; [exact K|repeat constructor].
  - intros H. apply server_read_past_ok in H. destruct H as (_ & _ & -> & ->). intros K. left. split; [exact K|constructor].
  - intros H. apply server_wait_flight2_ok in H. destruct H as (_ & _ & -> & ->). intros K. left. split; [destruct (p_usingClientAuth _); exact K|constructor].
  - intros H. inv_call H as w1 hm H1. apply server_wait_cert_ok in H. destruct H as (? & _ & _ & _ & _ & -> & ->). intros K. left. split; [destruct (ct_list _); exact K|constructor].
  - intros H. inv_call H as w1 hm H1. apply server_wait_cv_ok in H. destruct H as (? & ? & ? & _ & _ & _ & _ & _ & _ & _ & -> & ->). intros K. left. split; [exact K|constructor].
  - intros H. inv_call H as w1 hm H1. apply server_wait_finished_ok in H. destruct H as (_ & _ & _ & _ & -> & ->). discriminate.
  - intros [= <- <- <- <-]. discriminate.
Qed.
(** The last step. *)
Lemma next_connected E o fuel w s w' k acts retry : not_connected s -> past_ok s -> next (v_prims E) (v_pki E) o fuel w s = (w', Ok (Connected k, acts, retry)) ->
  let keys := makeTrafficKeys (v_prims E) (sc_suite k) in
  (sc_isClient k = true /\ exists l, acts = l ++ [RekeyIn EpochApplicationData (keys (sc_sts k)); RekeyOut EpochApplicationData (keys (sc_cts k))]) \/
  (sc_isClient k = false /\ acts = [RekeyIn EpochApplicationData (keys (sc_cts k))] /\
   exists sk, flight_sent s = Some sk /\ sk_suite sk = sc_suite k /\ sk_sts sk = sc_sts k).
Proof.
  destruct s; cbn [next flight_sent past_ok]; intros Nc Po.
  - intros H. apply client_start_ok in H. destruct H as (ws & ch & sending & k0 & H & _). discriminate.
  - intros H. inv_call H as w1 hm H1. apply client_wait_sh_ok in H. destruct H as (sh & n & vs & _ & _ & _ & _ & _ & [[_ H]|[_ H]]).
    + apply client_hrr_ok in H. destruct H as (c & ps & exts & _ & _ & R1 & R2 & _). discriminate.
    + apply client_server_hello_ok in H. destruct H as (? & ? & ? & ? & ps & ? & _ & _ & _ & _ & _ & H). cbv zeta in H. destruct (handshake_secrets _ _ _ _ _) as [[chs shs] ms].
      destruct H as (H & _ & _). discriminate.
  - intros H. inv_call H as w1 hm H1. apply client_wait_ee_ok in H. destruct H as (? & ? & ? & ? & _ & _ & _ & _ & _ & _ & H & _). destruct (p_usingPSK _); discriminate.
  - intros H. inv_call H as w1 hm H1. apply client_wait_cert_cr_ok in H. destruct H as (_ & _ & _ & [(? & _ & _ & H)|(? & _ & _ & _ & H)]); discriminate.
  - intros H. inv_call H as w1 hm H1. apply client_wait_cert_ok in H. destruct H as (_ & _ & _ & ? & _ & _ & H). discriminate.
  - intros H. inv_call H as w1 hm H1. apply client_wait_cv_ok in H. destruct H as (_ & _ & _ & ? & ? & ? & ? & _ & _ & _ & _ & _ & _ & H). discriminate.
  - intros H. inv_call H as w1 hm H1. apply client_wait_finished_ok in H. destruct H as (w3 & w4 & eoed & auth & finm & _ & _ & _ & _ & _ & _ & _ & _ & H & -> & _).
    injection H as ->. left. split; [reflexivity|]. exists (eoed ++ auth ++ [QueueHandshakeMessage finm; SendQueuedHandshake]). rewrite <- !app_assoc. reflexivity.
  - intros H. inv_call H as w1 hm H1. apply server_start_ok in H.
    destruct H as (ch & exts & found & x & v & first & dhs & dh & chosen & suite & hrr & again & w3 & w4 & w5 & _ & _ & _ & _ & _ & _ & _ & _ & _ & _ & _ & H).
    cbv zeta in H. destruct (pskModeNegotiation _ _ _) as [ud up]. destruct H as (_ & _ & _ & _ & _ & H). destruct again.
    + destruct H as (H & _ & _). discriminate.
    + destruct H as (_ & cert & scheme & proto & _ & _ & _ & _ & H). destruct (earlyDataNegotiation _ _ _). discriminate.
  - intros H. apply server_negotiated_ok in H. destruct H as (random & hexts & eexts & shm & ps & w3 & w4 & eem & finm & auth & ca & _ & _ & _ & _ & _ & H).
    cbv zeta in H. destruct (handshake_secrets _ _ _ _ _) as [[chs shs] ms]. destruct H as (_ & _ & _ & _ & _ & _ & _ & _ & _ & _ & H & _).
    destruct (p_usingEarlyData _); [discriminate|]. destruct (p_rejectedEarlyData _); discriminate.
  - intros H. inv_call H as w1 u H1. inv_call H as w2 hm H2. apply server_wait_eoed_ok in H. destruct H as (_ & _ & _ & _ & H & _). discriminate.
  - intros H. exfalso. apply server_read_past_ok in H. destruct H as (_ & _ & <- & _). now apply Po.
  - intros H. apply server_wait_flight2_ok in H. destruct H as (_ & _ & _ & H). destruct (p_usingClientAuth _); discriminate.
  - intros H. inv_call H as w1 hm H1. apply server_wait_cert_ok in H. destruct H as (? & _ & _ & _ & _ & _ & H). destruct (ct_list _); discriminate.
  - intros H. inv_call H as w1 hm H1. apply server_wait_cv_ok in H. destruct H as (? & ? & ? & _ & _ & _ & _ & _ & _ & _ & R1 & R2). discriminate.
  - intros H. inv_call H as w1 hm H1. apply server_wait_finished_ok in H. destruct H as (_ & _ & _ & _ & H & ->). injection H as ->.
    right. split; [reflexivity|]. split; [reflexivity|]. exists k0. repeat split.
  - contradiction.
Qed.

(** ** Histories *)

Definition keeps (c c' : conn) : Prop := c_hState c' = c_hState c /\ olike c c'.
Lemma keeps_key E c c' : keeps c c' -> out_key E c -> out_key E c'.
Proof. intros [A B] H s Hs. rewrite A in Hs. destruct (H s Hs) as [H1 H2]. split; [exact H1|]. intros k K. eapply like_uses; [exact B|]. now apply H2. Qed.
Lemma next_past P X o fuel w s w' s' acts retry : past_ok s -> next P X o fuel w s = (w', Ok (s', acts, retry)) -> past_ok s'.
Proof.
  destruct s; cbn [next past_ok]; intros Po.
  - intros H. apply client_start_ok in H. destruct H as (ws & ch & sending & k0 & -> & _). exact I.
  - intros H. inv_call H as w1 hm H1. apply client_wait_sh_ok in H. destruct H as (sh & n & vs & _ & _ & _ & _ & _ & [[_ H]|[_ H]]).
    + apply client_hrr_ok in H. destruct H as (c & ps & exts & _ & _ & _ & -> & _). exact I.
    + apply client_server_hello_ok in H. destruct H as (? & ? & ? & ? & ps & ? & _ & _ & _ & _ & _ & H). cbv zeta in H. destruct (handshake_secrets _ _ _ _ _) as [[chs shs] ms].
      destruct H as (-> & _ & _). exact I.
  - intros H. inv_call H as w1 hm H1. apply client_wait_ee_ok in H. destruct H as (? & ? & ? & ? & _ & _ & _ & _ & _ & _ & -> & _). destruct (p_usingPSK _); exact I.
  - intros H. inv_call H as w1 hm H1. apply client_wait_cert_cr_ok in H. destruct H as (_ & _ & _ & [(? & _ & _ & ->)|(? & _ & _ & _ & ->)]); exact I.
  - intros H. inv_call H as w1 hm H1. apply client_wait_cert_ok in H. destruct H as (_ & _ & _ & ? & _ & _ & ->). exact I.
  - intros H. inv_call H as w1 hm H1. apply client_wait_cv_ok in H. destruct H as (_ & _ & _ & ? & ? & ? & ? & _ & _ & _ & _ & _ & _ & ->). exact I.
  - intros H. inv_call H as w1 hm H1. apply client_wait_finished_ok in H. destruct H as (w3 & w4 & eoed & auth & finm & _ & _ & _ & _ & _ & _ & _ & _ & -> & _). exact I.
  - intros H. inv_call H as w1 hm H1. apply server_start_ok in H.
    destruct H as (ch & exts & found & x & v & first & dhs & dh & chosen & suite & hrr & again & w3 & w4 & w5 & _ & _ & _ & _ & _ & _ & _ & _ & _ & _ & _ & H).
    cbv zeta in H. destruct (pskModeNegotiation _ _ _) as [ud up]. destruct H as (_ & _ & _ & _ & _ & H). destruct again.
    + destruct H as (-> & _ & _). exact I.
    + destruct H as (_ & cert & scheme & proto & _ & _ & _ & _ & H). destruct (earlyDataNegotiation _ _ _). subst s'. exact I.
  - intros H. apply server_negotiated_ok in H. destruct H as (random & hexts & eexts & shm & ps & w3 & w4 & eem & finm & auth & ca & _ & _ & _ & _ & _ & H).
    cbv zeta in H. destruct (handshake_secrets _ _ _ _ _) as [[chs shs] ms]. destruct H as (_ & _ & _ & _ & _ & _ & _ & _ & _ & _ & -> & _).
    destruct (p_usingEarlyData _); [exact I|]. destruct (p_rejectedEarlyData _); [discriminate|exact I].
  - intros H. inv_call H as w1 u H1. inv_call H as w2 hm H2. apply server_wait_eoed_ok in H. destruct H as (_ & _ & _ & _ & -> & _). exact I.
  - intros H. apply server_read_past_ok in H. destruct H as (_ & _ & -> & _). destruct s; try exact I. cbn in Po |- *. exact Po.
  - intros H. apply server_wait_flight2_ok in H. destruct H as (_ & _ & _ & ->). destruct (p_usingClientAuth _); exact I.
  - intros H. inv_call H as w1 hm H1. apply server_wait_cert_ok in H. destruct H as (? & _ & _ & _ & _ & _ & ->). destruct (ct_list _); exact I.
  - intros H. inv_call H as w1 hm H1. apply server_wait_cv_ok in H. destruct H as (? & ? & ? & _ & _ & _ & _ & _ & _ & _ & R1 & R2). subst. exact I.
  - intros H. inv_call H as w1 hm H1. apply server_wait_finished_ok in H. destruct H as (_ & _ & _ & _ & -> & _). exact I.
  - intros [= <- <- <- <-]. exact I.
Qed.

Definition like2 (c c' : conn) : Prop := olike c c' /\ ilike c c'.
Lemma like2_refl c : like2 c c. Proof. split; apply core_like_refl. Qed.
Lemma like2_trans a b c : like2 a b -> like2 b c -> like2 a c.
Proof. intros [A B] [C D]. split; eapply core_like_trans; eauto. Qed.
Lemma like2_world c w : wxframe (c_world c) w -> like2 c (set_world c w).
Proof. intros (A & B & _). split; [exact B|exact A]. Qed.
Lemma ticket_still P o w c w' acts : newTicket P o w c = (w', Ok acts) -> Forall still_out acts /\ Forall still_in acts.
Proof.
  unfold newTicket. intros H. inv_pure H as t H1. inv_pure H as e H2. inv_call H as w1 m H3. injection H as <- <-. split; repeat constructor.
Qed.
Lemma on_connected_like E o c k : all (like2 c) (on_connected E o c k).
Proof.
  unfold on_connected. set (c1 := set_complete c k) in *. cbv zeta. assert (like2 c c1) as L1 by exact (like2_refl c). destruct (c_isClient c1).
  { destruct (w_early (c_world c1)); exact L1. }
  apply all_bind.
  - destruct (cf_sendSessionTickets _); [|exact L1].
    pose proof (wx_ticket (c_world c1) (v_prims E) o (c_world c1) k (wx_refl _)) as X.
    destruct (newTicket (v_prims E) o (c_world c1) k) as [w r] eqn:T. unfold all in X; cbn [fst] in X. pose proof (like2_world _ _ X) as L2.
    destruct r as [acts|e| |]; try exact (like2_trans _ _ _ L1 L2). apply ticket_still in T. destruct T as [T1 T2].
    pose proof (out_actions E (o_ms o) acts T1 (set_world c1 w)) as Q1. pose proof (in_actions E (o_ms o) acts T2 (set_world c1 w)) as Q2.
    destruct (takeActions E (o_ms o) (set_world c1 w) acts) as [c2 r2]. unfold all in Q1, Q2; cbn [fst] in Q1, Q2.
    assert (like2 c c2) as L3 by (eapply like2_trans; [eapply like2_trans; [exact L1|exact L2]|split; assumption]).
    destruct r2 as [u|e| |]; try exact L3. destruct e; try exact L3. eapply all_imp; [|apply both_fail_alert]. intros c3 L4. eapply like2_trans; [exact L3|exact L4].
  - intros c2 u _ H2. apply all_pair. destruct (w_early (c_world c2)); exact H2.
Qed.
Lemma flight_still P X o fuel w s w' s' acts retry k : flight_sent s = Some k -> next P X o fuel w s = (w', Ok (s', acts, retry)) -> Forall still_out acts.
Proof.
  destruct s; try discriminate; cbn [next]; intros _ H.
  - inv_call H as w1 u H1. inv_call H as w2 hm H2. apply server_wait_eoed_ok in H. destruct H as (_ & _ & _ & _ & -> & ->). repeat constructor.
  - apply server_read_past_ok in H. destruct H as (_ & _ & -> & ->). constructor.
  - apply server_wait_flight2_ok in H. destruct H as (_ & _ & -> & _). constructor.
  - inv_call H as w1 hm H1. apply server_wait_cert_ok in H. destruct H as (? & _ & _ & _ & _ & -> & _). constructor.
  - inv_call H as w1 hm H1. apply server_wait_cv_ok in H. destruct H as (? & ? & ? & _ & _ & _ & _ & _ & _ & _ & R1 & R2). subst. constructor.
  - inv_call H as w1 hm H1. apply server_wait_finished_ok in H. destruct H as (_ & _ & _ & _ & -> & ->). repeat constructor.
Qed.
Lemma turn_key E fuel o c s c' r : out_key E c -> c_hState c = Some s -> not_connected s -> handshake_turn E fuel o c s = (c', r) ->
  out_key E c' /\ (c_complete c = false -> c_complete c' = true ->
    exists k, c_hState c' = Some (Connected k) /\ c_state c' = k /\
      (if sc_isClient k then uses_key E (sc_suite k) (ocore c') (sc_cts k) /\ uses_key E (sc_suite k) (icore c') (sc_sts k)
       else uses_key E (sc_suite k) (ocore c') (sc_sts k) /\ uses_key E (sc_suite k) (icore c') (sc_cts k))).
Proof.
  intros K Hs Nc. destruct (K s Hs) as [Po Kk]. unfold handshake_turn.
  pose proof (wx_next (c_world c) (v_prims E) (v_pki E) o fuel (c_world c) s (wx_refl _)) as X.
  destruct (next (v_prims E) (v_pki E) o fuel (c_world c) s) as [w rn] eqn:N. unfold all in X; cbn [fst] in X.
  pose proof (like2_world _ _ X) as L1. set (c1 := set_world c w) in *.
  (* what fails *)
  assert (forall c2, cframe c1 c2 -> (forall k, flight_sent s = Some k -> olike c1 c2) -> out_key E c2 /\ (c_complete c = false -> c_complete c2 = true -> False)) as Fail.
  { intros c2 (_ & _ & F & F2 & _) O. split; [|change (c_complete c1) with (c_complete c) in F2; congruence]. intros s0 Hs0. rewrite F in Hs0. change (c_hState c1) with (c_hState c) in Hs0.
    assert (s0 = s) as -> by congruence. split; [exact Po|]. intros k Fk. eapply like_uses; [exact (O k Fk)|]. eapply like_uses; [exact (proj1 L1)|]. now apply Kk. }
  assert (forall c2 (Z : Prop), cframe c1 c2 -> (forall k, flight_sent s = Some k -> olike c1 c2) -> out_key E c2 /\ (c_complete c = false -> c_complete c2 = true -> Z)) as Fail2.
  { intros c2 Z A B. destruct (Fail c2 A B) as [F1 F2]. split; [exact F1|]. intros C D. destruct (F2 C D). }
  assert (forall c2 (Z : Prop), c2 = c1 -> out_key E c2 /\ (c_complete c = false -> c_complete c2 = true -> Z)) as Fail3.
  { intros c2 Z ->. apply Fail2; [apply cframe_refl|]. intros; apply olike_refl. }
  assert (forall A a c2 (r2 : res A) (Z : Prop), fail_alert c1 a = (c2, r2) -> out_key E c2 /\ (c_complete c = false -> c_complete c2 = true -> Z)) as Fail4.
  { intros A a c2 r2 Z H. pose proof (cframe_fail_alert (A := A) c1 c1 a (cframe_refl _)) as F. pose proof (both_fail_alert (A := A) c1 a) as G. rewrite H in F, G. unfold all in F, G. cbn [fst] in F, G.
    apply Fail2; [exact F|]. intros; apply G. }
  destruct rn as [[[s' acts] retry]|e| |].
  - pose proof (next_past _ _ _ _ _ _ _ _ _ _ Po N) as Po'. pose proof (fun k => next_out _ _ _ _ _ _ _ _ _ k N) as No.
    pose proof (cframe_actions E (o_ms o) c1 acts c1 (cframe_refl _)) as Fa.
    destruct (takeActions E (o_ms o) c1 acts) as [c2 r2] eqn:T. unfold all in Fa; cbn [fst] in Fa. 
    assert (forall k, flight_sent s = Some k -> olike c1 c2) as Oa.
    { intros k Fk. pose proof (out_actions E (o_ms o) acts (flight_still _ _ _ _ _ _ _ _ _ _ _ Fk N) c1) as O. rewrite T in O. exact O. }
    destruct r2 as [[]|e| |]; [|destruct e as [a| |]; try (intros [= <- _]; now apply Fail2)|intros [= <- _]; now apply Fail2|intros [= <- _]; now apply Fail2].
    + intros H. assert (forall k, flight_sent s' = Some k -> uses_key E (sk_suite k) (ocore c2) (sk_sts k)) as Ko.
      { intros k Fk. destruct (No k Fk) as [[A B]|(l1 & e & l2 & -> & B)]; [|now apply (out_installed _ _ _ _ _ _ _ _ _ B T)].
        eapply like_uses; [exact (Oa k A)|]. eapply like_uses; [exact (proj1 L1)|]. now apply Kk. }
      assert (not_connected s' -> c' = set_hState c2 s' -> out_key E c' /\ (c_complete c = false -> c_complete c' = true -> False)) as Easy.
      { intros Nc' ->. destruct Fa as (_ & _ & _ & Fa & _). change (c_complete c1) with (c_complete c) in Fa. split; [|cbn; congruence].
        intros s0 [= <-]. split; [exact Po'|exact Ko]. }
      destruct s' as [| | | | | | | | | | | | | | |kk]; try (injection H as <- _; destruct (Easy I eq_refl) as [Z1 Z2]; split; [exact Z1|intros Z3 Z4; destruct (Z2 Z3 Z4)]).
      destruct (on_connected E o (set_hState c2 (Connected kk)) kk) as [c3 r3] eqn:Oc. assert (c' = c3) as -> by (destruct r3; cbn in H; congruence).
      pose proof (on_connected_like E o (set_hState c2 (Connected kk)) kk) as L. rewrite Oc in L. unfold all in L; cbn [fst] in L.
      assert (like2 c2 c3) as L3 by exact L. clear L.
      assert (c_hState c3 = Some (Connected kk) /\ c_state c3 = kk) as [S1 S2].
      { apply on_connected_cases in Oc. cbv zeta in Oc. destruct Oc as [(_ & -> & _)|(_ & c4 & (F1 & F2 & F3 & F4 & _) & [[_ ->]|(_ & -> & _)])]; [split; reflexivity| |].
        - destruct (w_early (c_world c4)); split; assumption.
        - split; assumption. }
      split; [intros s0 Hs0; assert (s0 = Connected kk) as -> by congruence; split; [exact I|discriminate]|].
      intros _ _. exists kk. split; [exact S1|]. split; [exact S2|].
      destruct (next_connected _ _ _ _ _ _ _ _ _ Nc Po N) as [(Cl & l & ->)|(Cl & -> & sk & F1 & F2 & F3)]; rewrite Cl.
      * split; (eapply like_uses; [apply L3|]).
        -- eapply (out_installed E (o_ms o) c1 (l ++ [_]) _ (sc_suite kk) _ []); [constructor|]. rewrite <- app_assoc. exact T.
        -- eapply (in_installed E (o_ms o) c1 l _ (sc_suite kk) _ [_]); [|exact T]. repeat constructor.
      * split; (eapply like_uses; [apply L3|]).
        -- rewrite <- F2, <- F3. eapply like_uses; [exact (Oa sk F1)|]. eapply like_uses; [exact (proj1 L1)|]. now apply Kk.
        -- eapply (in_installed E (o_ms o) c1 [] _ (sc_suite kk) _ []); [constructor|exact T].
    + intros H. pose proof (cframe_fail_alert (A := hstate * bool) c1 c2 a Fa) as F. pose proof (both_fail_alert (A := hstate * bool) c2 a) as G. rewrite H in F, G. unfold all in F, G. cbn [fst] in F, G.
      apply Fail2; [exact F|]. intros k Fk. eapply core_like_trans; [exact (Oa k Fk)|apply G].
  - destruct e as [a| |]; try (intros [= <- _]; now apply Fail3). destruct (a =? AlertWouldBlock).
    + destruct (hl_datagram _); [|intros [= <- _]; now apply Fail3]. pose proof (xframe_timers_run (c_ctx c1) (v_grow E) (o_ms o) (c_ctx c1) (xframe_refl _)) as Xt.
      destruct (checkTimers _ _ _) as [x rx]. unfold all in Xt; cbn [fst] in Xt. intros H.
      assert (c' = upd_ctx c1 x) as -> by (destruct rx; cbn in H; congruence). apply Fail2; [apply cframe_ctx, cframe_refl|]. intros; now apply both_ctx.
    + destruct (a =? AlertCloseNotify); [intros H; eapply Fail4; exact H|intros [= <- _]; now apply Fail3].
  - intros [= <- _]; now apply Fail3.
  - intros [= <- _]; now apply Fail3.
Qed.

Definition session_keys (E : env) (c : conn) : Prop :=
  exists k, c_hState c = Some (Connected k) /\ c_state c = k /\
    (if sc_isClient k then uses_key E (sc_suite k) (ocore c) (sc_cts k) /\ uses_key E (sc_suite k) (icore c) (sc_sts k)
     else uses_key E (sc_suite k) (ocore c) (sc_sts k) /\ uses_key E (sc_suite k) (icore c) (sc_cts k)).
Definition key_step (E : env) (c c' : conn) : Prop := out_key E c' /\ (c_complete c = false -> c_complete c' = true -> session_keys E c').
Lemma loop_key E fuel os : forall c s c' r, out_key E c -> c_hState c = Some s -> (c_complete c = true -> is_connected c = true) -> handshake_loop E fuel os c s = (c', r) -> key_step E c c'.
Proof.
  induction os as [|o os IH]; intros c s c' r K Hs Ic H.
  - assert (c' = c) as -> by (destruct s; cbn in H; congruence). split; [exact K|congruence].
  - assert (not_connected s -> key_step E c c') as Step.
    { intros Nc. assert (handshake_loop E fuel (o :: os) c s = call c, '(s, retry) <- handshake_turn E fuel o c s;
        if cf_nonBlocking (c_cfg c) then (c, if retry : bool then alert AlertStatelessRetry else Ok tt) else handshake_loop E fuel os c s) as Eq by (destruct s; try reflexivity; contradiction).
      rewrite Eq in H. clear Eq. assert (c_complete c = false) as Cf.
      { destruct (c_complete c); [|reflexivity]. specialize (Ic eq_refl). unfold is_connected in Ic. rewrite Hs in Ic. destruct s; try discriminate. contradiction. }
      destruct (handshake_turn E fuel o c s) as [c1 r1] eqn:T. pose proof (turn_key E fuel o c s c1 r1 K Hs Nc T) as [K1 K2]. specialize (K2 Cf).
      assert (key_step E c c1) as S1 by (split; [exact K1|intros _; exact K2]).
      destruct r1 as [[s1 retry]|e| |]; cbn [sbind] in H; try (injection H as <- _; exact S1).
      destruct (cf_nonBlocking (c_cfg c1)); [injection H as <- _; exact S1|]. pose proof (turn_hstate _ _ _ _ _ _ _ _ T) as Hs1.
      assert (c_complete c1 = true -> is_connected c1 = true) as Ic1.
      { intros Cc. destruct (K2 Cc) as (k & Q & _). unfold is_connected. now rewrite Q. }
      destruct (IH c1 s1 c' r K1 Hs1 Ic1 H) as [Z1 Z2]. split; [exact Z1|]. intros _ Cc'. destruct (c_complete c1) eqn:Cc1; [|now apply Z2].
      specialize (Ic1 eq_refl). unfold is_connected in Ic1. rewrite Hs1 in Ic1. destruct s1; try discriminate.
      assert (c' = c1) as -> by (destruct os; cbn in H; congruence). now apply K2. }
    destruct s; try (apply Step; exact I). assert (c' = c) as -> by (cbn in H; congruence). split; [exact K|congruence].
Qed.
Lemma setup_key E o c c' r : c_hState c = None -> c_complete c = false -> handshakeSetup E o c = (c', r) -> out_key E c' /\ c_complete c' = false.
Proof.
  intros Hs Cf. unfold handshakeSetup. set (c1 := set_world c (world_init (c_world c))). cbv zeta. assert (c_hState c1 = None) as H1 by exact Hs. assert (c_complete c1 = false) as C1 by exact Cf. clearbody c1. clear Hs Cf c.
  assert (forall c2, c_hState c2 = None -> out_key E c2) as None_ok by (intros c2 A s B; congruence).
  assert (forall c2 s, past_ok s -> flight_sent s = None -> out_key E (set_hState c2 s)) as Some_ok.
  { intros c2 s A B s0 [= <-]. split; [exact A|]. intros k. congruence. }
  destruct (c_isClient c1).
  - destruct (client_start _ _ _ _) as [w rn] eqn:N. destruct rn as [[[s acts] rt]|e| |]; cbn [sbind]; try (intros [= <- _]; split; [now apply None_ok|exact C1]).
    apply client_start_ok in N. destruct N as (ws & ch & sending & k & -> & _).
    pose proof (cframe_actions E (o_ms o) (set_world c1 w) acts (set_world c1 w) (cframe_refl _)) as Fa. destruct (takeActions _ _ _ _) as [c2 [u|e| |]]; destruct Fa as (_ & _ & F3 & F4 & _); cbn [fst] in F3, F4; cbn in F3, F4; cbn [sbind]; intros [= <- _].
    + split; [now apply Some_ok|cbn; congruence].
    + split; [apply None_ok; congruence|congruence].
    + split; [apply None_ok; congruence|congruence].
    + split; [apply None_ok; congruence|congruence].
  - destruct (cf_cookieProtector _); [intros [= <- _]; split; [now apply Some_ok|exact C1]|]. destruct (cf_requireCookie _); [|intros [= <- _]; split; [now apply Some_ok|exact C1]].
    destruct (cf_nonBlocking _); [intros [= <- _]; split; [now apply None_ok|exact C1]|]. destruct (o_protector o); intros [= <- _]; split; try exact C1; [now apply Some_ok|now apply None_ok].
Qed.
Lemma handshake_key E fuel os c c' r : out_key E c -> (c_complete c = is_connected c) -> handshake E fuel os c = (c', r) -> key_step E c c'.
Proof.
  intros K Ic. unfold handshake. destruct (c_complete c) eqn:Cc; [intros [= <- _]; split; [exact K|congruence]|].
  destruct (c_hState c) as [s|] eqn:Hs; [apply loop_key; [exact K|exact Hs|congruence]|].
  destruct os as [|o os]; [intros [= <- _]; split; [exact K|congruence]|].
  destruct (handshakeSetup E o c) as [c1 r1] eqn:Su. destruct (setup_key _ _ _ _ _ Hs Cc Su) as [K1 C1].
  destruct r1 as [u|e| |]; cbn [sbind]; try (intros [= <- _]; split; [exact K1|congruence]).
  destruct (_ && _); [intros [= <- _]; split; [exact K1|congruence]|]. destruct (c_hState c1) as [s|] eqn:Hs1; [|intros [= <- _]; split; [exact K1|congruence]].
  intros H. apply loop_key in H; [|exact K1|exact Hs1|congruence]. destruct H as [H1 H2]. split; [exact H1|]. intros _. now apply H2.
Qed.
(** The key is kept by all uses. *)
Lemma connected_key E c : is_connected c = true -> out_key E c.
Proof. unfold is_connected. intros H s Hs. rewrite Hs in H. destruct s; try discriminate. split; [exact I|discriminate]. Qed.
Lemma write_keeps c b : keeps c (fst (write c b)).
Proof.
  unfold write. destruct (negb _); [split; [reflexivity|apply olike_refl]|]. generalize (List.length b) 0%nat. intros fuel. 
  assert (forall c1 b n, keeps c c1 -> keeps c (fst (write_loop fuel c1 b n))) as K; [|intros n; apply K; split; [reflexivity|apply olike_refl]].
  induction fuel as [|fuel IH]; intros c1 b1 n H; destruct b1 as [|x b1]; try exact H. cbn [write_loop].
  set (pt := mkPt _ _ _ _). unfold writeRecord. pose proof (like_write (c_out c1) pt (r_cipher (l_core (c_out c1))) 0) as L.
  destruct (writeRecordWithPadding _ _ _ _) as [l r]. cbn [fst] in L.
  assert (keeps c (upd_out c1 l)) as K1. { destruct H as [H1 H2]. split; [exact H1|]. eapply core_like_trans; [exact H2|exact L]. }
  destruct r; try exact K1. now apply IH.
Qed.
Lemma used_key E cfg psks client input c : used E (newConn cfg psks client input) c -> out_key E c.
Proof.
  intros U. pose proof (inv_used _ _ _ _ _ _ U) as Iv. induction U as [|c c' U IH A]; [intros s; discriminate|].
  pose proof (inv_used _ _ _ _ _ _ U) as Iv0. specialize (IH Iv0). pose proof (inv_complete _ _ _ Iv) as Cc'. pose proof (inv_complete _ _ _ Iv0) as Cc.
  destruct (is_connected c') eqn:Ic'; [now apply connected_key|].
  assert (other_use E c c' -> is_connected c = false) as Nc.
  { intros O. apply (other_run _ _ _ _ _ Iv0) in O. destruct O as [O _]. unfold is_connected in *. now rewrite <- O. }
  destruct A.
  - destruct (handshake E fuel os c) as [c1 r] eqn:H. apply handshake_key in H; [|exact IH|exact Cc]. apply H.
  - unfold read. rewrite (Nc (ou_read _ _ _ _ _)). cbn [negb].
    destruct (c_isClient c); [exact IH|]. destruct (negb _); [exact IH|]. destruct (w_early (c_world c)); exact IH.
  - eapply keeps_key; [apply write_keeps|exact IH].
  - unfold sendKeyUpdate. rewrite Cc, (Nc (ou_update _ _ _ _)). exact IH.
  - exact IH.
  - exact IH.
  - exact IH.
Qed.

(** ** After the handshake *)

Lemma write_like c b : cframe c (fst (write c b)) /\ like2 c (fst (write c b)).
Proof.
  unfold write. destruct (negb _); [split; [apply cframe_refl|apply like2_refl]|]. generalize (List.length b) 0%nat. intros fuel.
  assert (forall c1 b n, cframe c c1 /\ like2 c c1 -> cframe c (fst (write_loop fuel c1 b n)) /\ like2 c (fst (write_loop fuel c1 b n))) as K; [|intros n; apply K; split; [apply cframe_refl|apply like2_refl]].
  induction fuel as [|fuel IH]; intros c1 b1 n H; destruct b1 as [|x b1]; try exact H. cbn [write_loop].
  set (pt := mkPt _ _ _ _). unfold writeRecord. pose proof (like_write (c_out c1) pt (r_cipher (l_core (c_out c1))) 0) as L.
  destruct (writeRecordWithPadding _ _ _ _) as [l r]. cbn [fst] in L.
  assert (cframe c (upd_out c1 l) /\ like2 c (upd_out c1 l)) as K1.
  { destruct H as [H1 H2]. split; [now apply cframe_out|]. eapply like2_trans; [exact H2|]. split; [exact L|apply core_like_refl]. }
  destruct r; try exact K1. now apply IH.
Qed.
Lemma session_keys_like E c c' : session_keys E c -> cframe c c' -> like2 c c' -> session_keys E c'.
Proof.
  intros (k & A & B & D) (_ & F2 & F3 & _) [L1 L2]. exists k. split; [congruence|]. split; [congruence|].
  destruct (sc_isClient k); destruct D as [D1 D2]; (split; [eapply like_uses; [exact L1|exact D1]|eapply like_uses; [exact L2|exact D2]]).
Qed.
Lemma fresh_ok Q E cfg psks client input evs c : fresh_session Q E (newConn cfg psks client input) evs c ->
  steady Q E (newConn cfg psks client input) evs c /\ c_complete c = true /\ session_keys E c.
Proof.
  intros F. induction F as [fuel os evs c c' r S Cc Fo H Fi Cc'|fuel os evs c _ IH|evs c b _ IH|evs c _ IH|evs c data _ IH|evs c _ IH].
  - split; [eapply steady_handshake; eauto|]. split; [exact Cc'|]. pose proof (steady_used _ _ _ _ _ S) as U. pose proof (inv_used _ _ _ _ _ _ U) as Iv. apply used_key in U.
    apply handshake_key in H; [|exact U|exact (inv_complete _ _ _ Iv)]. destruct H as [_ H]. now apply H.
  - destruct IH as (A & B & D). rewrite (handshake_complete _ _ _ _ B). cbn [fst]. auto.
  - destruct IH as (A & B & D). destruct (write_like c b) as [W1 W2]. split; [eapply steady_other; [exact A|apply ou_write]|].
    split; [destruct W1 as (_ & _ & _ & W1 & _); congruence|]. eapply session_keys_like; eauto.
  - destruct IH as (A & B & D). split; [eapply steady_other; [exact A|apply ou_close]|]. split; [exact B|exact D].
  - destruct IH as (A & B & D). split; [eapply steady_other; [exact A|apply ou_input]|]. split; [exact B|exact D].
  - destruct IH as (A & B & D). split; [eapply steady_other; [exact A|apply ou_output]|]. split; [exact B|exact D].
Qed.
