(** Invariants of connections. *)
From Verif Require Import Base Syntax Frame Record Timer Handshake Crypto Messages Pki Negotiation Machine Cookie Client Server MachineProofs CtxProofs StepProofs Conn ConnSpec.
From Verif Require Import DtlsSpec DtlsProofs2.

(** ** What the actions leave alone *)

Definition cframe (c0 c : conn) : Prop :=
  c_isClient c = c_isClient c0 /\ c_state c = c_state c0 /\ c_hState c = c_hState c0 /\ c_complete c = c_complete c0 /\
  c_readBuffer c = c_readBuffer c0 /\ c_cfg c = c_cfg c0 /\ w_early (c_world c) = w_early (c_world c0).
Lemma cframe_refl c : cframe c c.
Proof. unfold cframe. auto 10. Qed.
Lemma cframe_trans a b c : cframe a b -> cframe b c -> cframe a c.
Proof. unfold cframe. intuition congruence. Qed.
Lemma cframe_ctx c0 c x : cframe c0 c -> cframe c0 (upd_ctx c x).
Proof. auto. Qed.
Lemma cframe_in c0 c x : cframe c0 c -> cframe c0 (upd_in c x).
Proof. auto. Qed.
Lemma cframe_out c0 c x : cframe c0 c -> cframe c0 (upd_out c x).
Proof. auto. Qed.
Lemma cframe_closed c0 c : cframe c0 c -> cframe c0 (set_closed c).
Proof. auto. Qed.
Lemma cframe_psks c0 c p : cframe c0 c -> cframe c0 (set_world c (set_psks (c_world c) p)).
Proof. auto. Qed.
#[export] Hint Resolve cframe_refl cframe_ctx cframe_in cframe_out cframe_closed cframe_psks : cframe.
Ltac chint := solve [auto 10 with cframe].
Ltac cwalk := repeat first [chint | known chint | walk1].

Lemma cframe_alert c0 c a : cframe c0 c -> all (cframe c0) (sendAlert c a).
Proof. intros H. unfold sendAlert. destruct (writeRecord _ _) as [l r]. destruct r; try chint; apply all_pair; match goal with |- cframe _ (if ?b then _ else _) => destruct b end; chint. Qed.
#[export] Hint Resolve cframe_alert : cframe.
Lemma cframe_fail_alert {A} c0 c a : cframe c0 c -> all (cframe c0) (fail_alert (A := A) c a).
Proof. intros H. unfold fail_alert. cwalk. Qed.
Lemma cframe_fail_eof {A} c0 c a : cframe c0 c -> all (cframe c0) (fail_eof (A := A) c a).
Proof. intros H. unfold fail_eof. cwalk. Qed.
#[export] Hint Resolve cframe_fail_alert cframe_fail_eof : cframe.
Lemma cframe_action E now c0 c a : cframe c0 c -> all (cframe c0) (takeAction E now c a).
Proof.
  intros H. destruct a; simpl.
  - destruct (queueMessage _ _); cwalk.
  - destruct (sendQueued _); cwalk. match goal with |- cframe _ (if ?b then _ else _) => destruct b end; chint.
  - destruct (f_rem _); [|cwalk]. destruct (layer_rekey _ _ _ _); cwalk.
  - destruct (layer_rekey _ _ _ _); cwalk.
  - cwalk.
  - cwalk.
Qed.
#[export] Hint Resolve cframe_action : cframe.
Lemma cframe_actions E now c0 l : forall c, cframe c0 c -> all (cframe c0) (takeActions E now c l).
Proof. induction l as [|a l IH]; intros c H; simpl; [cwalk|]. apply all_bind; [auto with cframe|]. auto. Qed.
#[export] Hint Resolve cframe_actions : cframe.

(** ** The key of the output *)

Definition out_epoch (c : conn) : N := rl_epoch (l_core (c_out c)).
Definition eframe (c0 c : conn) : Prop := out_epoch c = EpochEarlyData -> out_epoch c0 = EpochEarlyData.
(** An action that does not install the early data key. *)
Definition quiet (a : action) : Prop := match a with RekeyOut e _ => e <> EpochEarlyData | _ => True end.
Lemma eframe_refl c : eframe c c.
Proof. now unfold eframe. Qed.
Lemma eframe_ctx c0 c x : xframe (c_ctx c) x -> eframe c0 c -> eframe c0 (upd_ctx c x).
Proof. intros (_ & A & _) H. unfold eframe, out_epoch, c_out in *. cbn. unfold out_core in A. rewrite (core_like_epoch _ _ A). exact H. Qed.
Lemma eframe_out c0 c l : core_like (l_core (c_out c)) (l_core l) -> eframe c0 c -> eframe c0 (upd_out c l).
Proof. intros A H. unfold eframe, out_epoch in *. cbn. rewrite (core_like_epoch _ _ A). exact H. Qed.
Lemma eframe_alert c0 c a : eframe c0 c -> all (eframe c0) (sendAlert c a).
Proof.
  intros H. unfold sendAlert. set (pt := mkPt _ _ _ _). unfold writeRecord. pose proof (like_write (c_out c) pt (r_cipher (l_core (c_out c))) 0) as L.
  destruct (writeRecordWithPadding _ _ _ _) as [l r]. cbn [fst] in L. pose proof (eframe_out c0 c l L H) as K.
  destruct r; try exact K; apply all_pair; match goal with |- eframe _ (if ?b then _ else _) => destruct b end; exact K.
Qed.
Lemma eframe_action E now c0 c a : quiet a -> eframe c0 c -> all (eframe c0) (takeAction E now c a).
Proof.
  intros Q H. destruct a; cbn [takeAction].
  - pose proof (xframe_queue (c_ctx c) (c_ctx c) m (xframe_refl _)) as X. destruct (queueMessage _ _) as [x r]. now apply eframe_ctx.
  - pose proof (xframe_send (c_ctx c) (c_ctx c) (xframe_refl _)) as X. destruct (sendQueued _) as [x r].
    pose proof (eframe_ctx c0 c x X H) as K. apply all_bind; [exact K|]. intros s u Eq _. apply pair_ok in Eq. destruct Eq as [-> _].
    destruct (cf_useDTLS _); [|exact K]. apply all_pair. apply eframe_ctx; [|exact K]. apply xframe_arm, xframe_refl.
  - destruct (f_rem _); [|exact H]. destruct (layer_rekey _ _ _ _); exact H.
  - unfold layer_rekey. destruct (cipherSuiteMap _); [|exact H]. destruct (_ || _)%bool; [|exact H].
    apply all_pair. unfold eframe, out_epoch, rl_epoch, get_cs, upd_core. cbn. rewrite app_nth2, Nat.sub_diag by apply Nat.le_refl. cbn. intros ->. now contradiction Q.
  - apply all_pair. unfold eframe, out_epoch, rl_epoch, get_cs, upd_core. cbn. rewrite app_nth2, Nat.sub_diag by apply Nat.le_refl. cbn. discriminate.
  - destruct (cf_psks _); exact H.
Qed.
Lemma eframe_actions E now c0 l : Forall quiet l -> forall c, eframe c0 c -> all (eframe c0) (takeActions E now c l).
Proof.
  induction 1 as [|a l Q _ IH]; intros c H; simpl; [exact H|]. apply all_bind; [now apply eframe_action|]. auto.
Qed.
Lemma eframe_fail_alert {A} c0 c a : eframe c0 c -> all (eframe c0) (fail_alert (A := A) c a).
Proof. intros H. unfold fail_alert. apply all_bind; [now apply eframe_alert|]. auto. Qed.
Lemma eframe_fail_eof {A} c0 c a : eframe c0 c -> all (eframe c0) (fail_eof (A := A) c a).
Proof. intros H. unfold fail_eof. apply all_bind; [now apply eframe_alert|]. auto. Qed.
Lemma eframe_world c0 c w : wxframe (c_world c) w -> eframe c0 c -> eframe c0 (set_world c w).
Proof. intros X H. apply (eframe_ctx c0 c (w_ctx w) X) in H. exact H. Qed.

(** Both frames at once. *)
Definition qframe (c0 c : conn) : Prop := cframe c0 c /\ eframe c0 c.
Lemma qframe_refl c : qframe c c.
Proof. split; [apply cframe_refl|apply eframe_refl]. Qed.
Lemma qframe_all {A} c0 (p : conn * res A) : all (cframe c0) p -> all (eframe c0) p -> all (qframe c0) p.
Proof. now split. Qed.
Lemma qframe_alert c0 c a : qframe c0 c -> all (qframe c0) (sendAlert c a).
Proof. intros [A B]. apply qframe_all; [now apply cframe_alert|now apply eframe_alert]. Qed.
Lemma qframe_actions E now c0 l c : Forall quiet l -> qframe c0 c -> all (qframe c0) (takeActions E now c l).
Proof. intros Q [A B]. apply qframe_all; [now apply cframe_actions|now apply eframe_actions]. Qed.
Lemma qframe_fail_alert {A} c0 c a : qframe c0 c -> all (qframe c0) (fail_alert (A := A) c a).
Proof. intros [B C]. apply qframe_all; [now apply cframe_fail_alert|now apply eframe_fail_alert]. Qed.
Lemma qframe_fail_eof {A} c0 c a : qframe c0 c -> all (qframe c0) (fail_eof (A := A) c a).
Proof. intros [B C]. apply qframe_all; [now apply cframe_fail_eof|now apply eframe_fail_eof]. Qed.
Lemma qframe_ctx c0 c x : xframe (c_ctx c) x -> qframe c0 c -> qframe c0 (upd_ctx c x).
Proof. intros X [A B]. split; [now apply cframe_ctx|now apply eframe_ctx]. Qed.
Lemma qframe_out c0 c l : core_like (l_core (c_out c)) (l_core l) -> qframe c0 c -> qframe c0 (upd_out c l).
Proof. intros X [A B]. split; [now apply cframe_out|now apply eframe_out]. Qed.
Lemma qframe_in c0 c l : qframe c0 c -> qframe c0 (upd_in c l).
Proof. intros [A B]. split; [now apply cframe_in|exact B]. Qed.
Lemma qframe_trans a b c : qframe a b -> qframe b c -> qframe a c.
Proof. intros [A B] [C D]. split; [eapply cframe_trans; eauto|unfold eframe in *; auto]. Qed.
Lemma qframe_world c0 c w : frame (c_world c) w -> wxframe (c_world c) w -> qframe c0 c -> qframe c0 (set_world c w).
Proof.
  intros (A & B & C) X [D F]. split; [|now apply eframe_world]. destruct D as (D1 & D2 & D3 & D4 & D5 & D6 & D7).
  unfold cframe, c_cfg in *. cbn. rewrite A, C. auto 10.
Qed.

(** ** The states of each side *)

Fixpoint state_ok (client : bool) (s : hstate) : Prop :=
  match s with
  | CStart st => client = true /\ st_params st = no_params /\ st_hrr st <> None
  | CWaitSH _ | CWaitEE _ | CWaitCertCR _ | CWaitCert _ _ | CWaitCV _ _ _ | CWaitFinished _ _ _ _ _ => client = true
  | SReadPastEarlyData nx => client = false /\ state_ok false nx
  | Connected k => sc_isClient k = client
  | _ => client = false
  end.

Lemma only_quiet l : only_messages l -> Forall quiet l.
Proof. apply Forall_impl. now intros a [m ->]. Qed.
Lemma next_ok P X o fuel w s w' s' acts retry client : state_ok client s -> next P X o fuel w s = (w', Ok (s', acts, retry)) ->
  state_ok client s' /\ Forall quiet acts.
Proof.
  destruct s; cbn [next state_ok].
  - intros (-> & Hp & Hr) H. apply client_start_ok in H. destruct H as (ws & ch & sending & k & -> & _ & -> & _ & _ & _ & _ & _ & _ & _ & Hk & _).
    split; [reflexivity|]. assert (sending = false) as ->.
    { destruct (ws_psk ws) as [key|].
      - destruct Hk as (ps & _ & _ & _ & ->). rewrite Hp. destruct (st_hrr s); [|contradiction]. now rewrite Bool.andb_false_r.
      - destruct Hk as [_ ->]. now rewrite Hp. }
    repeat constructor.
  - intros -> H. inv_call H as w1 hm H1. apply client_wait_sh_ok in H. destruct H as (sh & n & vs & _ & _ & _ & _ & _ & [[_ H]|[_ H]]).
    + apply client_hrr_ok in H. destruct H as (c & ps & exts & _ & _ & -> & -> & _). split; [split; [reflexivity|split; [reflexivity|discriminate]]|]. repeat constructor.
    + apply client_server_hello_ok in H. destruct H as (? & ? & ? & ? & ps & ? & _ & _ & _ & _ & _ & H). cbv zeta in H. destruct (handshake_secrets _ _ _ _ _) as [[chs shs] ms].
      destruct H as (-> & _ & ->). split; [reflexivity|]. match goal with |- context [if ?b then _ else _] => destruct b end; repeat constructor. discriminate.
  - intros -> H. inv_call H as w1 hm H1. apply client_wait_ee_ok in H. destruct H as (? & ? & ? & ? & _ & _ & _ & _ & _ & _ & -> & ->).
    split; [destruct (p_usingPSK _); reflexivity|]. match goal with |- context [if ?b then _ else _] => destruct b end; repeat constructor. discriminate.
  - intros -> H. inv_call H as w1 hm H1. apply client_wait_cert_cr_ok in H. destruct H as (_ & _ & -> & H). split; [|constructor].
    destruct H as [(? & _ & _ & ->)|(? & _ & _ & _ & ->)]; reflexivity.
  - intros -> H. inv_call H as w1 hm H1. apply client_wait_cert_ok in H. destruct H as (_ & _ & -> & ? & _ & _ & ->). split; [reflexivity|constructor].
  - intros -> H. inv_call H as w1 hm H1. apply client_wait_cv_ok in H. destruct H as (_ & _ & -> & ? & ? & ? & ? & _ & _ & _ & _ & _ & _ & ->). split; [reflexivity|constructor].
  - intros -> H. inv_call H as w1 hm H1. apply client_wait_finished_ok in H. destruct H as (w3 & w4 & eoed & auth & finm & _ & _ & He & Ha & _ & _ & _ & _ & -> & -> & _).
    split; [reflexivity|]. apply client_eoed_ok in He. destruct He as [_ He]. apply client_auth_ok in Ha. destruct Ha as (_ & Ha & _).
    apply Forall_app. split; [destruct (p_usingEarlyData _); [destruct He as (m & _ & ->); repeat constructor; discriminate|subst; constructor]|].
    apply Forall_app. split; [now apply only_quiet|]. repeat constructor. discriminate.
  - intros -> H. inv_call H as w1 hm H1. apply server_start_ok in H.
    destruct H as (ch & exts & found & x & v & first & dhs & dh & chosen & suite & hrr & again & w3 & w4 & w5 & _ & _ & _ & _ & _ & _ & _ & _ & _ & _ & _ & H).
    cbv zeta in H. destruct (pskModeNegotiation _ _ _) as [ud up]. destruct H as (_ & _ & _ & _ & _ & H). destruct again.
    + destruct H as (-> & _ & ->). split; [reflexivity|]. destruct hrr; repeat constructor.
    + destruct H as (_ & cert & scheme & proto & _ & _ & -> & _ & H). destruct (earlyDataNegotiation _ _ _). subst s'. split; [reflexivity|constructor].
  - intros -> H. apply server_negotiated_ok in H. destruct H as (random & hexts & eexts & shm & ps & w3 & w4 & eem & finm & auth & ca & _ & _ & _ & _ & _ & H).
    cbv zeta in H. destruct (handshake_secrets _ _ _ _ _) as [[chs shs] ms]. destruct H as (_ & _ & _ & _ & _ & Ha & _ & _ & _ & _ & -> & -> & _).
    apply server_auth_ok in Ha. destruct Ha as (_ & Ha & _). split.
    { destruct (p_usingEarlyData _); [reflexivity|]. destruct (p_rejectedEarlyData _); [split; reflexivity|reflexivity]. }
    apply Forall_app. split; [repeat constructor; discriminate|]. apply Forall_app. split; [now apply only_quiet|]. repeat constructor; [discriminate|]. destruct (p_usingEarlyData _); exact I.
  - intros -> H. inv_call H as w1 u H1. inv_call H as w2 hm H2. apply server_wait_eoed_ok in H. destruct H as (_ & _ & _ & _ & -> & ->). split; [reflexivity|repeat constructor].
  - intros (-> & Hs) H. apply server_read_past_ok in H. destruct H as (_ & _ & -> & ->). split; [exact Hs|constructor].
  - intros -> H. apply server_wait_flight2_ok in H. destruct H as (_ & _ & -> & ->). split; [destruct (p_usingClientAuth _); reflexivity|constructor].
  - intros -> H. inv_call H as w1 hm H1. apply server_wait_cert_ok in H. destruct H as (? & _ & _ & _ & _ & -> & ->). split; [destruct (ct_list _); reflexivity|constructor].
  - intros -> H. inv_call H as w1 hm H1. apply server_wait_cv_ok in H. destruct H as (? & ? & ? & _ & _ & _ & _ & _ & _ & _ & -> & ->). split; [reflexivity|constructor].
  - intros -> H. inv_call H as w1 hm H1. apply server_wait_finished_ok in H. destruct H as (_ & _ & _ & _ & -> & ->). split; [reflexivity|repeat constructor].
  - intros Hs [= <- <- <- <-]. split; [exact Hs|constructor].
Qed.

Lemma ticket_quiet P o w c w' acts : newTicket P o w c = (w', Ok acts) -> Forall quiet acts.
Proof.
  unfold newTicket. intros H. inv_pure H as t H1. inv_pure H as e H2. inv_call H as w1 m H3. injection H as <- <-. repeat constructor.
Qed.
Lemma key_update_quiet P w c r w' c' acts : keyUpdate P w c r = ((w', c'), Ok acts) -> Forall quiet acts.
Proof.
  unfold keyUpdate. destruct (sc_isClient c); destruct (newMessage w (BKeyUpdate r)) as [w1 r1]; intros [= _ _ H]; inv_bind H as m H1; apply Ok_inj in H; subst acts; repeat constructor; discriminate.
Qed.
Lemma key_update_client P w c r w' c' x : keyUpdate P w c r = ((w', c'), x) -> sc_isClient c' = sc_isClient c.
Proof.
  unfold keyUpdate. destruct (sc_isClient c) eqn:K; destruct (newMessage w (BKeyUpdate r)) as [w1 r1]; intros [= _ <- _]; exact K.
Qed.
Lemma process_ok P X o w c hm w' c' acts : processMessage P X o w c hm = (w', Ok (c', acts)) -> Forall quiet acts /\ sc_isClient c' = sc_isClient c.
Proof.
  unfold processMessage. intros H. inv_pure H as b H1. destruct b as [ | | | | | | | |request| ]; try discriminate.
  - destruct (negb (sc_isClient c)); [discriminate|]. injection H as <- <- <-. split; [repeat constructor|reflexivity].
  - assert (forall c1 keys, sc_isClient c1 = sc_isClient c ->
      (if request =? KeyUpdateRequested then let '((w, c), r) := keyUpdate P w c1 KeyUpdateNotRequested in (w, do more <- r; Ok (c, [RekeyIn EpochUpdate keys] ++ more))
       else (w, Ok (c1, [RekeyIn EpochUpdate keys]))) = (w', Ok (c', acts)) -> Forall quiet acts /\ sc_isClient c' = sc_isClient c) as K.
    { intros c1 keys K. destruct (request =? KeyUpdateRequested).
      - destruct (keyUpdate P w c1 KeyUpdateNotRequested) as [[w1 c2] r] eqn:U. pose proof (key_update_client _ _ _ _ _ _ _ U) as C2.
        intros [= <- Q]. inv_bind Q as more Q1. injection Q as <- <-. subst r. apply key_update_quiet in U. split; [constructor; [exact I|exact U]|congruence].
      - intros [= <- <- <-]. split; [repeat constructor|exact K]. }
    destruct (negb (sc_isClient c)); eapply K; try exact H; reflexivity.
Qed.

(** ** The invariant *)

(** How the configuration of a connection given [cfg] can have changed. *)
Definition cfg_now (client started : bool) (cfg cfg' : config) : Prop :=
  if started then
    cfg' = cfg_init cfg \/ (client = true /\ exists s, cfg' = set_suites (cfg_init cfg) [s]) \/
    (client = false /\ cf_requireCookie cfg = true /\ cf_cookieProtector cfg = None /\ cf_nonBlocking cfg = false /\ exists p, cfg' = set_protector (cfg_init cfg) (Some p))
  else cfg' = cfg \/ cfg' = cfg_init cfg.
Definition started (c : conn) : bool := match c_hState c with Some _ => true | None => false end.
Record inv (cfg : config) (client : bool) (c : conn) : Prop := mkInv {
  inv_role : c_isClient c = client;
  inv_complete : c_complete c = is_connected c;
  inv_state : forall s, c_hState c = Some s -> state_ok client s;
  inv_connected : c_complete c = true -> sc_isClient (c_state c) = client;
  inv_early : client = true -> out_epoch c = EpochEarlyData -> cf_allowEarlyData cfg = true;
  inv_cfg : cfg_now client (started c) cfg (c_cfg c) }.

Lemma or_default_idem {A} (l d : list A) : or_default (or_default l d) d = or_default l d.
Proof. destruct l; [destruct d|]; reflexivity. Qed.
Lemma cfg_init_idem c : cfg_init (cfg_init c) = cfg_init c.
Proof.
  unfold cfg_init. cbn. rewrite !or_default_idem. destruct (cf_ticketLen c =? 0)%Z eqn:T; [|rewrite T]; destruct (cf_psks c); reflexivity.
Qed.

Lemma inv_qframe cfg client c0 c : inv cfg client c0 -> qframe c0 c -> inv cfg client c.
Proof.
  intros [A B C D F G] [(K1 & K2 & K3 & K4 & K5 & K6 & K7) E]. unfold is_connected, started, c_cfg in *.
  split; unfold is_connected, started, c_cfg in *; rewrite ?K1, ?K2, ?K3, ?K4, ?K6; auto.
Qed.
Lemma inv_new cfg psks client input : inv cfg client (newConn cfg psks client input).
Proof.
  split; try reflexivity; try discriminate. left. reflexivity.
Qed.

(** Changes of the world in a step. *)
Lemma cfg_now_step client s cfg w w' : state_ok client s -> cfg_now client true cfg (w_cfg w) -> step_frame s w w' -> cfg_now client true cfg (w_cfg w').
Proof.
  intros S C F. destruct s; cbn [step_frame] in F; try (destruct F as (-> & _); exact C).
  destruct F as ([->|[x ->]] & _); [exact C|]. cbn in S. subst client. right. left. split; [reflexivity|]. exists x.
  destruct C as [->|[(_ & y & ->)|(? & _)]]; [reflexivity|reflexivity|discriminate].
Qed.
Lemma inv_step cfg client c s w : inv cfg client c -> c_hState c = Some s -> step_frame s (c_world c) w -> wxframe (c_world c) w -> inv cfg client (set_world c w).
Proof.
  intros [A B C D F G] S H X. split; try assumption.
  - intros Hc Ho. apply F; [exact Hc|]. now apply (eframe_world c c w X (eframe_refl c)).
  - unfold started in *. cbn. rewrite S in *. unfold c_cfg in *. cbn. eapply cfg_now_step; [apply C; reflexivity|exact G|exact H].
Qed.
Lemma inv_frame cfg client c w : inv cfg client c -> frame (c_world c) w -> wxframe (c_world c) w -> inv cfg client (set_world c w).
Proof. intros H F X. eapply inv_qframe; [exact H|]. apply qframe_world; auto using qframe_refl. Qed.

Lemma all_qframe_inv {A} cfg client c (p : conn * res A) : inv cfg client c -> all (qframe c) p -> all (inv cfg client) p.
Proof. intros H. apply all_imp. intros c'. now apply inv_qframe. Qed.

Lemma inv_rest cfg client c early b : inv cfg client c -> inv cfg client (set_readBuffer (set_world c (set_early (c_world c) early)) b).
Proof. intros [A B C D F G]. split; assumption. Qed.
Lemma inv_on_connected E o cfg client c k : inv cfg client (set_complete c k) -> all (inv cfg client) (on_connected E o c k).
Proof.
  intros H. unfold on_connected. set (c1 := set_complete c k) in *. cbv zeta. destruct (c_isClient c1).
  { destruct (w_early (c_world c1)); exact H. }
  apply all_bind.
  - destruct (cf_sendSessionTickets _); [|exact H].
    pose proof (frame_ticket (c_world c1) (v_prims E) o (c_world c1) k (frame_refl _)) as F.
    pose proof (wx_ticket (c_world c1) (v_prims E) o (c_world c1) k (wx_refl _)) as X.
    destruct (newTicket (v_prims E) o (c_world c1) k) as [w r] eqn:T. unfold all in F, X; cbn [fst] in F, X. pose proof (inv_frame _ _ _ _ H F X) as H2.
    destruct r as [acts|e| |]; try exact H2. apply ticket_quiet in T.
    pose proof (qframe_actions E (o_ms o) (set_world c1 w) acts (set_world c1 w) T (qframe_refl _)) as Q.
    destruct (takeActions E (o_ms o) (set_world c1 w) acts) as [c2 r2]. unfold all in Q; cbn [fst] in Q. pose proof (inv_qframe _ _ _ _ H2 Q) as H3.
    destruct r2 as [u|e| |]; try exact H3. destruct e; try exact H3.
    apply (all_qframe_inv cfg client c2 _ H3). apply qframe_fail_alert, qframe_refl.
  - intros c2 u _ H2. apply all_pair. destruct (w_early (c_world c2)); [exact H2|now apply inv_rest].
Qed.

Definition not_connected (s : hstate) : Prop := match s with Connected _ => False | _ => True end.
Lemma inv_turn E fuel o cfg client c s : inv cfg client c -> c_hState c = Some s -> not_connected s -> all (inv cfg client) (handshake_turn E fuel o c s).
Proof.
  intros H S Nc. unfold handshake_turn. pose proof (frame_next (v_prims E) (v_pki E) o fuel (c_world c) s) as F.
  pose proof (wx_next (c_world c) (v_prims E) (v_pki E) o fuel (c_world c) s (wx_refl _)) as X.
  destruct (next (v_prims E) (v_pki E) o fuel (c_world c) s) as [w r] eqn:N. unfold all in F, X; cbn [fst] in F, X.
  pose proof (inv_step _ _ _ _ _ H S F X) as H1. set (c1 := set_world c w) in *.
  destruct r as [[[s' acts] retry]|e| |]; try exact H1.
  - apply (next_ok _ _ _ _ _ _ _ _ _ _ client) in N; [|now apply (inv_state _ _ _ H)]. destruct N as [Hs' Qa].
    pose proof (qframe_actions E (o_ms o) c1 acts c1 Qa (qframe_refl _)) as Q. destruct (takeActions E (o_ms o) c1 acts) as [c2 r2].
    unfold all in Q; cbn [fst] in Q. pose proof (inv_qframe _ _ _ _ H1 Q) as H2.
    destruct r2 as [u|e| |]; try exact H2.
    + assert (c_hState c2 = Some s) as St. { destruct Q as [(_ & _ & Q & _) _]. rewrite Q. exact S. }
      destruct H2 as [A B C D G K]. unfold started in K. rewrite St in K.
      assert (c_complete c2 = false) as Cf. { rewrite B. unfold is_connected. rewrite St. destruct s; try reflexivity. contradiction. }
      assert (forall k, s' = Connected k -> inv cfg client (set_complete (set_hState c2 s') k)) as HC.
      { intros k ->. split; try assumption; try reflexivity; [now intros s0 [= <-]|]. intros _. exact Hs'. }
      apply all_bind; [|intros c3 u3 _ H3; exact H3].
      destruct s'; try (apply inv_on_connected; now apply HC);
        (apply all_pair; split; try assumption; now intros ? [= <-]).
    + destruct e; try exact H2. apply (all_qframe_inv cfg client c2 _ H2). apply qframe_fail_alert, qframe_refl.
  - destruct e as [a| |]; try exact H1. destruct (a =? AlertWouldBlock).
    + destruct (hl_datagram _); [|exact H1]. pose proof (xframe_timers_run (c_ctx c1) (v_grow E) (o_ms o) (c_ctx c1) (xframe_refl _)) as Xt.
      destruct (checkTimers _ _ _) as [x r]. unfold all in Xt; cbn [fst] in Xt.
      pose proof (inv_qframe _ _ _ _ H1 (qframe_ctx c1 c1 x Xt (qframe_refl _))) as H2.
      apply all_bind; [exact H2|]. intros c2 u _ H3. exact H3.
    + destruct (a =? AlertCloseNotify); [|exact H1]. apply (all_qframe_inv cfg client c1 _ H1). apply qframe_fail_alert, qframe_refl.
Qed.

Lemma actions_hstate E now c l : all (fun c' => c_hState c' = c_hState c) (takeActions E now c l).
Proof. eapply all_imp; [|apply cframe_actions, cframe_refl]. intros c' (_ & _ & H & _). exact H. Qed.
(** The new state is recorded in the connection. *)
Lemma turn_hstate E fuel o c s c' s' retry : handshake_turn E fuel o c s = (c', Ok (s', retry)) -> c_hState c' = Some s'.
Proof.
  unfold handshake_turn. destruct (next _ _ _ _ _ _) as [w [[[s1 acts] rt]|e| |]]; try discriminate.
  - destruct (takeActions _ _ _ _) as [c1 [u|e| |]]; try discriminate.
    + intros H. inv_call H as c2 u2 H2. injection H as <- <- <-. destruct s1; try (injection H2 as <-; reflexivity).
      revert H2. unfold on_connected. cbv zeta. destruct (c_isClient _).
      { destruct (w_early _); [|discriminate]. now intros [= <-]. }
      intros H. inv_call H as c3 u3 H3. assert (c_hState c3 = Some (Connected c0)) as K.
      { destruct (cf_sendSessionTickets _); [|injection H3 as <-; reflexivity].
        destruct (newTicket _ _ _ _) as [w2 [acts2|e| |]]; try discriminate; [|injection H3 as <-; reflexivity].
        pose proof (actions_hstate E (o_ms o) (set_world (set_complete (set_hState c1 (Connected c0)) c0) w2) acts2) as Ha.
        destruct (takeActions _ _ _ _) as [c4 [u4|e4| |]]; try discriminate; [injection H3 as <-; exact Ha|].
        destruct e4; try discriminate. unfold fail_alert in H3. inv_call H3 as c5 u5 H5. discriminate. }
      apply pair_ok in H. destruct H as [-> _]. destruct (w_early _); exact K.
    + destruct e; try discriminate. unfold fail_alert. intros H. inv_call H as c5 u5 H5. discriminate.
  - destruct e; try discriminate. destruct (_ =? _).
    + destruct (hl_datagram _); [|discriminate]. destruct (checkTimers _ _ _). intros H. inv_call H as c5 u5 H5. discriminate.
    + destruct (_ =? _); [|discriminate]. unfold fail_alert. intros H. inv_call H as c5 u5 H5. discriminate.
Qed.

Lemma inv_loop E fuel cfg client os : forall c s, inv cfg client c -> c_hState c = Some s -> all (inv cfg client) (handshake_loop E fuel os c s).
Proof.
  induction os as [|o os IH]; intros c s H S.
  - destruct s; exact H.
  - assert (not_connected s -> all (inv cfg client) (call c, '(s, retry) <- handshake_turn E fuel o c s;
      if cf_nonBlocking (c_cfg c) then (c, if retry : bool then alert AlertStatelessRetry else Ok tt) else handshake_loop E fuel os c s)) as K.
    { intros Nc. apply all_bind; [now apply inv_turn|]. intros c1 [s1 rt] T H1. destruct (cf_nonBlocking _); [exact H1|].
      apply IH; [exact H1|]. eapply turn_hstate; exact T. }
    destruct s; try (apply K; exact I). exact H.
Qed.

Lemma inv_setup E o cfg client c : inv cfg client c -> c_hState c = None -> all (inv cfg client) (handshakeSetup E o c).
Proof.
  intros H S. unfold handshakeSetup. set (c1 := set_world c (world_init (c_world c))).
  assert (c_cfg c1 = cfg_init cfg) as Cc.
  { pose proof (inv_cfg _ _ _ H) as G. unfold started in G. rewrite S in G. unfold c1, world_init, c_cfg in *. cbn.
    destruct G as [->| ->]; [reflexivity|apply cfg_init_idem]. }
  assert (c_complete c1 = false) as Cf. { destruct H as [_ B _ _ _ _]. cbn. rewrite B. unfold is_connected. now rewrite S. }
  assert (inv cfg client c1) as H1.
  { destruct H as [A B C D F G]. split; try assumption.
    - intros K1 K2. apply F; [exact K1|]. unfold c1, out_epoch, c_out, c_ctx, world_init in K2. cbn in K2. destruct (cf_psks _); exact K2.
    - unfold started. cbn [c1 set_world c_hState]. rewrite S. right. exact Cc. }
  assert (cfg_now client true cfg (c_cfg c1)) as Cn by (left; exact Cc).
  clearbody c1. clear H S. cbv zeta. rewrite (inv_role _ _ _ H1). destruct client.
  - pose proof (frame_client_start (c_world c1) (v_prims E) o (c_world c1) (mkCst (cf_serverName (c_cfg c1)) (cf_nextProtos (c_cfg c1)) no_params None None None) (frame_refl _)) as F.
    pose proof (wx_client_start (c_world c1) (v_prims E) o (c_world c1) (mkCst (cf_serverName (c_cfg c1)) (cf_nextProtos (c_cfg c1)) no_params None None None) (wx_refl _)) as X.
    destruct (client_start _ _ _ _) as [w r] eqn:N. unfold all in F, X; cbn [fst] in F, X. pose proof (inv_frame _ _ _ _ H1 F X) as H2.
    apply all_bind; [exact H2|]. intros c2 [[s acts] rt] P _. apply pair_ok in P. destruct P as [-> ->].
    apply client_start_ok in N. destruct N as (ws & ch & sending & k & -> & _ & -> & _ & _ & _ & _ & _ & _ & _ & Hk & _).
    assert (sending = true -> cf_allowEarlyData cfg = true) as Ha.
    { intros ->. replace (cf_allowEarlyData cfg) with (cf_allowEarlyData (c_cfg c1)) by (rewrite Cc; reflexivity). destruct (ws_psk ws) as [key|].
      - destruct Hk as (ps & _ & _ & _ & Hk). symmetry in Hk. apply Bool.orb_true_iff in Hk. destruct Hk as [Hk|Hk]; [|discriminate]. apply Bool.andb_true_iff in Hk. apply Hk.
      - destruct Hk as [_ Hk]. discriminate. }
    assert (forall c3, cframe (set_world c1 w) c3 -> (out_epoch c3 = EpochEarlyData -> cf_allowEarlyData cfg = true) -> inv cfg true c3) as K.
    { intros c3 (K1 & K2 & K3 & K4 & K5 & K6 & K7) Ke. destruct H2 as [A B C D G I]. unfold is_connected, started, c_cfg in *.
      split; unfold is_connected, started, c_cfg in *; rewrite ?K1, ?K2, ?K3, ?K4, ?K6; auto. }
    apply all_bind.
    + apply (all_imp (fun c3 => cframe (set_world c1 w) c3 /\ (out_epoch c3 = EpochEarlyData -> cf_allowEarlyData cfg = true))); [intros c3 [Q1 Q2]; now apply K|].
      split; [apply cframe_actions, cframe_refl|]. destruct sending.
      * intros _. now apply Ha.
      * intros He. pose proof (eframe_actions E (o_ms o) (set_world c1 w) [QueueHandshakeMessage (ws_hello ws); SendQueuedHandshake] ltac:(repeat constructor) (set_world c1 w) (eframe_refl _) He) as He'.
        now apply (inv_early _ _ _ H2).
    + intros c3 u T H3. assert (cframe (set_world c1 w) c3) as Fc.
      { pose proof (fun l => cframe_actions E (o_ms o) (set_world c1 w) l (set_world c1 w) (cframe_refl _)) as Fc.
        match type of T with takeActions _ _ _ ?l = _ => specialize (Fc l) end. rewrite T in Fc. exact Fc. }
      destruct Fc as (_ & _ & _ & Fc & _ & Fg & _). cbn in Fc. unfold c_cfg in Fg. cbn in Fg. destruct F as (F & _).
      destruct H3 as [A B C D G I]. apply all_pair. split; try assumption.
      * cbn. congruence.
      * now intros s0 [= <-].
      * unfold started. cbn. unfold c_cfg in *. cbn. now rewrite Fg, F.
  - assert (forall cfg', cfg_now false true cfg cfg' -> inv cfg false (set_hState (set_world c1 (set_cfg (c_world c1) cfg')) SStart)) as K.
    { intros cfg' Hn. destruct H1 as [A B C D G I]. split; try assumption; now intros s0 [= <-]. }
    assert (inv cfg false (set_hState c1 SStart)) as K1.
    { specialize (K (c_cfg c1) Cn). destruct c1 as [[? ? ? ? ?] ? ? ? ? ? ?]. exact K. }
    destruct (cf_cookieProtector (c_cfg c1)) as [pr|] eqn:Pr; [exact K1|]. destruct (cf_requireCookie (c_cfg c1)) eqn:Rc; [|exact K1].
    destruct (cf_nonBlocking (c_cfg c1)) eqn:Nb; [exact H1|]. destruct (o_protector o) as [p|]; [|exact H1].
    apply all_pair, K. right. right. rewrite Cc in *. cbn in Pr, Rc, Nb. do 4 (split; [auto|]). now exists p.
Qed.

Lemma inv_handshake E fuel os cfg client c : inv cfg client c -> all (inv cfg client) (handshake E fuel os c).
Proof.
  intros H. unfold handshake. destruct (c_complete c); [exact H|]. destruct (c_hState c) as [s|] eqn:S; [now apply inv_loop|].
  destruct os as [|o os]; [exact H|]. apply all_bind; [now apply inv_setup|]. intros c1 u _ H1. destruct (_ && _); [exact H1|].
  destruct (c_hState c1) as [s|] eqn:S1; [now apply inv_loop|exact H1].
Qed.

Lemma inv_set_state cfg client c k : inv cfg client c -> sc_isClient k = client -> inv cfg client (set_state c k).
Proof. intros [A B C D F G] H. split; try assumption. now intros _. Qed.
Lemma inv_post E fuel o cfg client : forall c f, c_complete c = true -> inv cfg client c -> all (inv cfg client) (post_messages E fuel o c f).
Proof.
  induction fuel as [|fuel IH]; intros c f Cc H; destruct f as [|ty rest]; try exact H. cbn [post_messages].
  destruct (_ <? _)%nat; [exact H|]. destruct (_ <? _)%nat; [exact H|]. set (hm := mkHm _ _ _ _ _ _ _).
  pose proof (frame_process (c_world c) (v_prims E) (v_pki E) o (c_world c) (c_state c) hm (frame_refl _)) as F.
  pose proof (wx_process (c_world c) (v_prims E) (v_pki E) o (c_world c) (c_state c) hm (wx_refl _)) as X.
  destruct (processMessage _ _ _ _ _ _) as [w r] eqn:N. unfold all in F, X; cbn [fst] in F, X. pose proof (inv_frame _ _ _ _ H F X) as H1.
  destruct r as [[s acts]|e| |]; try exact H1.
  - apply process_ok in N. destruct N as [Q Ks]. pose proof (qframe_actions E (o_ms o) (set_world c w) acts (set_world c w) Q (qframe_refl _)) as Qf.
    destruct (takeActions _ _ _ _) as [c2 r2]. unfold all in Qf; cbn [fst] in Qf. pose proof (inv_qframe _ _ _ _ H1 Qf) as H2.
    destruct r2 as [u|e| |]; try exact H2.
    + destruct Qf as [(_ & _ & _ & Qc & _) _]. apply IH; [cbn; rewrite Qc; exact Cc|]. apply inv_set_state; [exact H2|]. rewrite Ks. now apply (inv_connected _ _ _ H).
    + destruct e; try exact H2. apply (all_qframe_inv cfg client c2 _ H2). apply qframe_fail_eof, qframe_refl.
  - destruct e; try exact H1. apply (all_qframe_inv cfg client _ _ H1). apply qframe_fail_eof, qframe_refl.
Qed.
Lemma inv_readBuffer cfg client c b : inv cfg client c -> inv cfg client (set_readBuffer c b).
Proof. intros [A B C D F G]. split; assumption. Qed.
Lemma inv_consume E o cfg client c : c_complete c = true -> inv cfg client c -> all (inv cfg client) (consumeRecord E o c).
Proof.
  intros Cc H. unfold consumeRecord. destruct (readRecord (c_in c)) as [l r].
  assert (inv cfg client (upd_in c l)) as H1 by (eapply inv_qframe; [exact H|apply qframe_in, qframe_refl]).
  apply all_bind; [exact H1|]. intros c1 pt P _. apply pair_ok in P. destruct P as [-> _].
  destruct (Byte.eqb _ _); [now apply inv_post|]. destruct (Byte.eqb _ _).
  - assert (forall A a, all (inv cfg client) (fail_eof (A := A) (upd_in c l) a)) as K.
    { intros A a. apply (all_qframe_inv cfg client _ _ H1). apply qframe_fail_eof, qframe_refl. }
    destruct (p_fragment pt) as [|x [|y [|z f]]]; try apply K. destruct (_ =? _); [exact H1|]. destruct (_ =? _); [exact H1|]. destruct (_ =? _); [exact H1|apply K].
  - destruct (Byte.eqb _ _).
    + destruct (negb _); [exact H1|]. pose proof (xframe_process_ack (c_ctx (upd_in c l)) (o_ms o) (c_ctx (upd_in c l)) (p_fragment pt) (xframe_refl _)) as X.
      destruct (processAck _ _ _) as [x r2]. apply all_pair. eapply inv_qframe; [exact H1|]. apply qframe_ctx; [exact X|apply qframe_refl].
    + destruct (Byte.eqb _ _); [apply all_pair, inv_readBuffer|]; exact H1.
Qed.
Lemma complete_post E fuel o : forall c f, all (fun c' => c_complete c' = c_complete c) (post_messages E fuel o c f).
Proof.
  induction fuel as [|fuel IH]; intros c f; destruct f as [|ty rest]; try reflexivity. cbn [post_messages].
  destruct (_ <? _)%nat; [reflexivity|]. destruct (_ <? _)%nat; [reflexivity|]. set (hm := mkHm _ _ _ _ _ _ _).
  destruct (processMessage _ _ _ _ _ _) as [w [[s acts]|e| |]]; try reflexivity.
  - pose proof (cframe_actions E (o_ms o) (set_world c w) acts (set_world c w) (cframe_refl _)) as Q. destruct (takeActions _ _ _ _) as [c2 r2].
    destruct Q as (_ & _ & _ & Q & _). cbn in Q. destruct r2 as [u|e| |]; try exact Q.
    + eapply all_imp; [|apply IH]. cbv beta. intros c3 ->. exact Q.
    + destruct e; try exact Q. eapply all_imp; [|apply cframe_fail_eof, cframe_refl]. intros c3 (_ & _ & _ & K & _). congruence.
  - destruct e; try reflexivity. eapply all_imp; [|apply cframe_fail_eof, cframe_refl]. intros c3 (_ & _ & _ & K & _). exact K.
Qed.
Lemma complete_consume E o c : all (fun c' => c_complete c' = c_complete c) (consumeRecord E o c).
Proof.
  unfold consumeRecord. destruct (readRecord (c_in c)) as [l r]. apply all_bind; [reflexivity|]. intros c1 pt P _. apply pair_ok in P. destruct P as [-> _].
  assert (forall A a, all (fun c' => c_complete c' = c_complete c) (fail_eof (A := A) (upd_in c l) a)) as K.
  { intros A a. eapply all_imp; [|apply cframe_fail_eof, cframe_refl]. intros c3 (_ & _ & _ & Q & _). exact Q. }
  destruct (Byte.eqb _ _); [apply (complete_post E _ o (upd_in c l))|]. destruct (Byte.eqb _ _).
  - destruct (p_fragment pt) as [|x [|y [|z f]]]; try apply K. destruct (_ =? _); [reflexivity|]. destruct (_ =? _); [reflexivity|]. destruct (_ =? _); [reflexivity|apply K].
  - destruct (Byte.eqb _ _).
    + destruct (negb _); [reflexivity|]. destruct (processAck _ _ _) as [x r2]. reflexivity.
    + destruct (Byte.eqb _ _); reflexivity.
Qed.
Lemma inv_read_loop E cfg client os : forall c n, c_complete c = true -> inv cfg client c -> all (inv cfg client) (read_loop E os c n).
Proof.
  induction os as [|o os IH]; intros c n Cc H; cbn [read_loop]; destruct (c_readBuffer c); try exact H; try (apply all_pair, inv_readBuffer; exact H).
  pose proof (inv_consume E o cfg client c Cc H) as K. pose proof (complete_consume E o c) as Kc.
  destruct (consumeRecord E o c) as [c1 [u|e| |]]; unfold all in K, Kc; cbn [fst] in K, Kc; try exact K; [|destruct (_ || _); [exact K|]]; apply IH; congruence || exact K.
Qed.
Lemma complete_connected cfg client c : inv cfg client c -> is_connected c = true -> c_complete c = true.
Proof. intros H. now rewrite (inv_complete _ _ _ H). Qed.
Lemma handshake_complete E fuel os c : c_complete c = true -> handshake E fuel os c = (c, Ok tt).
Proof. unfold handshake. now intros ->. Qed.
Lemma inv_read E fuel os cfg client c n : inv cfg client c -> all (inv cfg client) (read E fuel os c n).
Proof.
  intros H. unfold read. destruct (is_connected c) eqn:K; cbn [negb].
  - pose proof (complete_connected _ _ _ H K) as Cc. rewrite handshake_complete by exact Cc. cbn [sbind]. destruct (_ =? _)%nat; [exact H|].
    apply all_bind.
    + destruct (cf_useDTLS _); [|exact H]. destruct os as [|o os]; [exact H|].
      pose proof (xframe_timers_run (c_ctx c) (v_grow E) (o_ms o) (c_ctx c) (xframe_refl _)) as X. destruct (checkTimers _ _ _) as [x r].
      apply all_pair. eapply inv_qframe; [exact H|]. apply qframe_ctx; [exact X|apply qframe_refl].
    + intros c1 u P H1. apply inv_read_loop; [|exact H1]. destruct (cf_useDTLS _); [|injection P as <-; exact Cc]. destruct os as [|o os]; [discriminate|].
      destruct (checkTimers _ _ _) as [x r]. apply pair_ok in P. destruct P as [-> _]. exact Cc.
  - destruct (c_isClient c); [exact H|]. destruct (negb _); [exact H|]. destruct (w_early (c_world c)) eqn:W; [exact H|].
    apply all_pair. destruct H as [A B C D F G]. split; assumption.
Qed.
Lemma write_loop_frame c0 fuel : forall c b sent, qframe c0 c -> qframe c0 (fst (write_loop fuel c b sent)).
Proof.
  induction fuel as [|fuel IH]; intros c b sent H; destruct b as [|x b]; try exact H. cbn [write_loop].
  set (pt := mkPt _ _ _ _). unfold writeRecord. pose proof (like_write (c_out c) pt (r_cipher (l_core (c_out c))) 0) as L.
  destruct (writeRecordWithPadding _ _ _ _) as [l r]. cbn [fst] in L. pose proof (qframe_out c0 c l L H) as K. destruct r; try exact K. now apply IH.
Qed.
Lemma inv_write cfg client c b : inv cfg client c -> inv cfg client (fst (write c b)).
Proof.
  intros H. unfold write. destruct (negb _); [exact H|]. eapply inv_qframe; [exact H|]. apply write_loop_frame, qframe_refl.
Qed.
Lemma inv_update E o cfg client c b : inv cfg client c -> all (inv cfg client) (sendKeyUpdate E o c b).
Proof.
  intros H. unfold sendKeyUpdate. destruct (c_complete c) eqn:Cc; cbn [negb]; [|exact H]. set (r := if b then _ else _).
  pose proof (frame_key_update (c_world c) (v_prims E) (c_world c) (c_state c) r (frame_refl _)) as F.
  pose proof (wx_key_update (c_world c) (v_prims E) (c_world c) (c_state c) r (wx_refl _)) as X.
  destruct (keyUpdate _ _ _ _) as [[w s] x] eqn:U. cbn [fst] in F, X.
  pose proof (key_update_client _ _ _ _ _ _ _ U) as Ks. rewrite (inv_connected _ _ _ H Cc) in Ks.
  pose proof (inv_set_state _ _ _ _ (inv_frame _ _ _ _ H F X) Ks) as H1. set (c1 := set_state (set_world c w) s) in *.
  assert (forall c2 a, inv cfg client c2 -> all (inv cfg client) (call c2, _ <- sendAlert c2 a; (c2, Err (A := unit) (EMsg "Alert during key update actions")))) as K1.
  { intros c2 a H2. apply all_bind; [apply (all_qframe_inv cfg client _ _ H2), qframe_alert, qframe_refl|]. intros c3 u _ H3. exact H3. }
  assert (forall c2 a, inv cfg client c2 -> all (inv cfg client) (call c2, _ <- sendAlert c2 a; (c2, Err (A := unit) (EMsg "Alert while generating key update")))) as K2.
  { intros c2 a H2. apply all_bind; [apply (all_qframe_inv cfg client _ _ H2), qframe_alert, qframe_refl|]. intros c3 u _ H3. exact H3. }
  destruct x as [acts|e| |]; try exact H1.
  - apply key_update_quiet in U. pose proof (qframe_actions E (o_ms o) c1 acts c1 U (qframe_refl _)) as Q. destruct (takeActions _ _ _ _) as [c2 r2].
    unfold all in Q; cbn [fst] in Q. pose proof (inv_qframe _ _ _ _ H1 Q) as H2. destruct r2 as [u|e| |]; try exact H2. destruct e; try exact H2. now apply K1.
  - destruct e; try exact H1. now apply K2.
Qed.
Lemma inv_api E cfg client c c' : api E c c' -> inv cfg client c -> inv cfg client c'.
Proof.
  intros A H. destruct A.
  - now apply inv_handshake.
  - now apply inv_read.
  - now apply inv_write.
  - now apply inv_update.
  - eapply inv_qframe; [exact H|]. split; [apply cframe_closed, cframe_refl|]. exact (eframe_refl c).
  - eapply inv_qframe; [exact H|]. apply qframe_in, qframe_refl.
  - eapply inv_qframe; [exact H|]. apply qframe_out; [|apply qframe_refl]. apply core_like_refl.
Qed.
Lemma inv_used E cfg psks client input c : used E (newConn cfg psks client input) c -> inv cfg client c.
Proof. intros U. induction U as [|c c' _ IH A]; [apply inv_new|]. eapply inv_api; eauto. Qed.

(** ** Configurations *)

Lemma filled_default {A} (l d : list A) : filled [] d l (or_default l d).
Proof. split; intros H; [destruct l; [contradiction|reflexivity]|now subst]. Qed.
Lemma filled_ticket z : filled 0%Z 16%Z z (if (z =? 0)%Z then defaultTicketLen else z).
Proof. destruct (Z.eqb_spec z 0) as [->|N]; split; intros H; try reflexivity; contradiction. Qed.
Lemma init_fields c :
  filled [] [4865; 4866] (cf_cipherSuites c) (cf_cipherSuites (cfg_init c)) /\
  filled [] [23; 24; 256; 29] (cf_groups c) (cf_groups (cfg_init c)) /\
  filled [] [2052; 2053; 2054; 1027; 1283; 1539] (cf_signatureSchemes c) (cf_signatureSchemes (cfg_init c)) /\
  filled [] [0; 1] (cf_pskModes c) (cf_pskModes (cfg_init c)) /\
  filled 0%Z 16%Z (cf_ticketLen c) (cf_ticketLen (cfg_init c)) /\
  (cf_psks c <> None -> cf_psks (cfg_init c) = cf_psks c) /\ cf_psks (cfg_init c) <> None /\
  cf_serverName (cfg_init c) = cf_serverName c /\ cf_sendSessionTickets (cfg_init c) = cf_sendSessionTickets c /\
  cf_ticketLifetime (cfg_init c) = cf_ticketLifetime c /\ cf_earlyDataLifetime (cfg_init c) = cf_earlyDataLifetime c /\
  cf_allowEarlyData (cfg_init c) = cf_allowEarlyData c /\ cf_requireCookie (cfg_init c) = cf_requireCookie c /\
  cf_cookieHandler (cfg_init c) = cf_cookieHandler c /\ cf_cookieProtector (cfg_init c) = cf_cookieProtector c /\
  cf_extensionHandler (cfg_init c) = cf_extensionHandler c /\ cf_requireClientAuth (cfg_init c) = cf_requireClientAuth c /\
  cf_time (cfg_init c) = cf_time c /\ cf_rootCAs (cfg_init c) = cf_rootCAs c /\ cf_insecureSkipVerify (cfg_init c) = cf_insecureSkipVerify c /\
  cf_certificates (cfg_init c) = cf_certificates c /\ cf_verifyPeerCertificate (cfg_init c) = cf_verifyPeerCertificate c /\
  cf_nextProtos (cfg_init c) = cf_nextProtos c /\ cf_nonBlocking (cfg_init c) = cf_nonBlocking c /\ cf_useDTLS (cfg_init c) = cf_useDTLS c /\
  cf_recordLayer (cfg_init c) = cf_recordLayer c.
Proof.
  do 4 (split; [apply filled_default|]). split; [apply filled_ticket|]. split; [cbn; destruct (cf_psks c); [reflexivity|now intros []]|].
  split; [cbn; destruct (cf_psks c); discriminate|]. repeat (split; [reflexivity|]). reflexivity.
Qed.
Lemma world_init_idem w : world_init (world_init w) = world_init w.
Proof.
  unfold world_init at 1. destruct (cf_psks (w_cfg (world_init w))) eqn:K.
  - unfold world_init. cbn. destruct (cf_psks (w_cfg w)); unfold set_cfg; cbn; now rewrite cfg_init_idem.
  - exfalso. revert K. unfold world_init. cbn. destruct (cf_psks (w_cfg w)); discriminate.
Qed.
Lemma world_init_psks w : cf_psks (w_cfg w) <> None -> w_psks (world_init w) = w_psks w.
Proof. intros H. unfold world_init. now destruct (cf_psks (w_cfg w)). Qed.
Lemma clone_iff c : cfg_clone c = c <-> cf_recordLayer c = None.
Proof. split; intros H; [rewrite <- H; reflexivity|]. unfold cfg_clone. rewrite <- H. now destruct c. Qed.
Lemma used_cfg E cfg psks client input c : used E (newConn cfg psks client input) c ->
  c_cfg c = cfg \/ c_cfg c = cfg_init cfg \/
  (client = true /\ agree_but_suites (c_cfg c) (cfg_init cfg) /\ exists s, cf_cipherSuites (c_cfg c) = [s]) \/
  (client = false /\ agree_but_protector (c_cfg c) (cfg_init cfg) /\
   cf_requireCookie cfg = true /\ cf_cookieProtector cfg = None /\ cf_nonBlocking cfg = false /\ cf_cookieProtector (c_cfg c) <> None).
Proof.
  intros U. apply inv_used in U. pose proof (inv_cfg _ _ _ U) as G. unfold cfg_now in G. destruct (started c).
  - destruct G as [->|[(-> & s & ->)|(-> & A & B & C & p & ->)]]; [auto| |].
    + right. right. left. split; [reflexivity|]. split; [now exists []|now exists s].
    + right. right. right. split; [reflexivity|]. split; [now exists None|]. split; [exact A|]. split; [exact B|]. split; [exact C|discriminate].
  - destruct G as [->| ->]; auto.
Qed.
Lemma used_server_cfg E cfg psks input c : used E (newConn cfg psks false input) c -> cf_requireCookie cfg = false \/ cf_cookieProtector cfg <> None ->
  c_cfg c = cfg \/ c_cfg c = cfg_init cfg.
Proof.
  intros U H. apply used_cfg in U. destruct U as [U|[U|[(U & _)|(_ & _ & A & B & _)]]]; [auto|auto|discriminate|].
  destruct H as [H|H]; [congruence|contradiction].
Qed.

(** ** What a turn does *)

Definition failed {A} (r : res A) : Prop := match r with Ok _ => False | _ => True end.
Lemma all_cframe_run {A} c c' (r : res A) p : all (cframe c) p -> p = (c', r) -> cframe c c'.
Proof. intros H ->. exact H. Qed.
Lemma fail_alert_failed {A} c a c' (r : res A) : fail_alert c a = (c', r) -> failed r /\ cframe c c'.
Proof.
  intros H. split; [|exact (all_cframe_run _ _ _ _ (cframe_fail_alert c c a (cframe_refl c)) H)].
  unfold fail_alert in H. destruct (sendAlert c a) as [c1 [u|e| |]]; cbn [sbind] in H; injection H as <- <-; exact I.
Qed.
Lemma frame_cframe c w : frame (c_world c) w -> cframe c (set_world c w).
Proof. intros (F1 & _ & F2). unfold cframe, c_cfg. cbn. rewrite F1. auto 10. Qed.

Lemma on_connected_cases E o c k c' r : on_connected E o c k = (c', r) ->
  let c1 := set_complete c k in
  (c_isClient c = true /\ c' = c1 /\ (failed r \/ w_early (c_world c) = [])) \/
  (c_isClient c = false /\ exists c2, cframe c1 c2 /\
     ((r = Ok tt /\ c' = match w_early (c_world c2) with [] => c2 | early => set_readBuffer (set_world c2 (set_early (c_world c2) [])) early end) \/
      (failed r /\ c' = c2 /\ cf_sendSessionTickets (c_cfg c) = true))).
Proof.
  intros H c1. unfold on_connected in H. fold c1 in H. cbv zeta in H. change (c_isClient c1) with (c_isClient c) in H. destruct (c_isClient c).
  { left. split; [reflexivity|]. change (c_world c1) with (c_world c) in H. destruct (w_early (c_world c)); injection H as <- <-; split; auto. now left. }
  right. split; [reflexivity|]. change (c_cfg c1) with (c_cfg c) in H.
  match type of H with sbind ?t ?f = _ => set (tk := t) in *; set (cont := f) in * end.
  assert (all (cframe c1) tk /\ (failed (snd tk) -> cf_sendSessionTickets (c_cfg c) = true)) as [F G].
  { subst tk. destruct (cf_sendSessionTickets (c_cfg c)); [split; auto|split; [apply cframe_refl|contradiction]].
    pose proof (frame_ticket (c_world c1) (v_prims E) o (c_world c1) k (frame_refl _)) as F.
    destruct (newTicket _ _ _ _) as [w [acts|e| |]]; apply frame_cframe in F; try exact F.
    pose proof (cframe_actions E (o_ms o) c1 acts _ F) as Q. destruct (takeActions _ _ _ _) as [c2 [u|e| |]]; try exact Q.
    destruct e as [a| |]; try exact Q. apply cframe_fail_alert, Q. }
  destruct tk as [c2 r2]. unfold all in F; cbn [fst snd] in *. exists c2. split; [exact F|].
  destruct r2 as [u|e| |]; cbn [sbind] in H; subst cont; injection H as <- <-; [left; split; reflexivity| | |]; right; repeat split; now apply G.
Qed.

Lemma turn_cases E fuel o c s c' r : handshake_turn E fuel o c s = (c', r) ->
  exists w rn, next (v_prims E) (v_pki E) o fuel (c_world c) s = (w, rn) /\
   ((failed r /\ cframe (set_world c w) c') \/
    exists s' acts retry c1, rn = Ok (s', acts, retry) /\ takeActions E (o_ms o) (set_world c w) acts = (c1, Ok tt) /\
      ((not_connected s' /\ c' = set_hState c1 s' /\ r = Ok (s', retry)) \/
       (exists k r1, s' = Connected k /\ on_connected E o (set_hState c1 s') k = (c', r1) /\ r = (do _ <- r1; Ok (s', retry))))).
Proof.
  unfold handshake_turn. destruct (next _ _ _ _ _ _) as [w rn]. intros H. exists w, rn. split; [reflexivity|].
  set (c0 := set_world c w) in *. destruct rn as [[[s' acts] retry]|e| |].
  - pose proof (cframe_actions E (o_ms o) c0 acts c0 (cframe_refl _)) as Q. destruct (takeActions _ _ _ _) as [c1 [[]|e| |]] eqn:T;
      [|left; destruct e as [a| |]; [apply fail_alert_failed in H as [F1 F2]; split; [exact F1|eapply cframe_trans; eauto]|injection H as <- <-; split; [exact I|exact Q]..] |injection H as <- <-; left; split; [exact I|exact Q]..].
    right. exists s', acts, retry, c1. split; [reflexivity|]. split; [exact T|].
    destruct s'; try (left; cbn [sbind] in H; injection H as <- <-; split; [exact I|split; reflexivity]).
    right. destruct (on_connected _ _ _ _) as [cx r2] eqn:K. eexists _, r2. split; [reflexivity|].
    destruct r2 as [[]|e| |]; cbn [sbind bind] in *; injection H as <- <-; split; auto.
  - left. destruct e as [a| |]; [|injection H as <- <-; split; [exact I|apply cframe_refl]..].
    destruct (_ =? _).
    + destruct (hl_datagram _); [|injection H as <- <-; split; [exact I|apply cframe_refl]].
      destruct (checkTimers _ _ _) as [x rx]. destruct rx; cbn [sbind or_alert] in H; injection H as <- <-; (split; [exact I|apply cframe_ctx, cframe_refl]).
    + destruct (_ =? _); [now apply fail_alert_failed in H|]. injection H as <- <-; split; [exact I|apply cframe_refl].
  - left. injection H as <- <-; split; [exact I|apply cframe_refl].
  - left. injection H as <- <-; split; [exact I|apply cframe_refl].
Qed.

(** A connection that [Handshake] leaves complete with an error is a server's that sends tickets. *)
Lemma cfg_now_tickets client st cfg c : cfg_now client st cfg c -> cf_sendSessionTickets c = cf_sendSessionTickets cfg.
Proof.
  unfold cfg_now. destruct st.
  - intros [->|[(_ & x & ->)|(_ & _ & _ & _ & p & ->)]]; reflexivity.
  - intros [->| ->]; reflexivity.
Qed.
Lemma turn_failed E fuel o cfg client c s c' r : inv cfg client c -> c_hState c = Some s -> not_connected s ->
  handshake_turn E fuel o c s = (c', r) -> failed r -> c_complete c' = true -> cf_sendSessionTickets cfg = true /\ client = false \/ (r = Panic /\ client = true).
Proof.
  intros H S Nc T Fr Cc. assert (c_complete c = false) as Cf. { rewrite (inv_complete _ _ _ H). unfold is_connected. rewrite S. destruct s; try reflexivity; contradiction. }
  pose proof (inv_turn E fuel o cfg client c s H S Nc) as I'. rewrite T in I'. unfold all in I'; cbn [fst] in I'.
  apply turn_cases in T. destruct T as (w & rn & N & [(_ & (_ & _ & _ & Q & _))|(s' & acts & retry & c1 & -> & T & D)]).
  { cbn in Q. congruence. }
  destruct D as [(_ & _ & ->)|(k & r1 & -> & D & Dr)]; [contradiction|].
  pose proof (inv_role _ _ _ I') as Ro. pose proof (inv_cfg _ _ _ I') as Ci. pose proof D as D0. apply on_connected_cases in D. cbn in D.
  destruct D as [(Ic & Ec & [F|F])|(Ic & c2 & Fc & [[-> _]|(F & -> & Tk)])].
  - right. assert (c_isClient c' = true) as Ic' by (rewrite Ec; exact Ic). split; [|congruence].
    unfold on_connected in D0. cbv zeta in D0. change (c_isClient (set_complete (set_hState c1 (Connected k)) k)) with (c_isClient c1) in D0. rewrite Ic in D0.
    destruct (w_early _); injection D0 as _ <-; [contradiction F|]. exact Dr.
  - exfalso. unfold on_connected in D0. cbv zeta in D0. change (c_isClient (set_complete (set_hState c1 (Connected k)) k)) with (c_isClient c1) in D0. rewrite Ic in D0.
    cbn in D0. rewrite F in D0. injection D0 as _ <-. rewrite Dr in Fr. exact Fr.
  - subst r. contradiction.
  - left. destruct Fc as (Ro2 & _ & _ & _ & _ & Cf2 & _). cbn in Ro2, Cf2. split; [|congruence].
    rewrite <- (cfg_now_tickets _ _ _ _ Ci), Cf2. exact Tk.
Qed.
Lemma loop_failed E fuel cfg client os : forall c s c' r, inv cfg client c -> c_hState c = Some s ->
  handshake_loop E fuel os c s = (c', r) -> failed r -> c_complete c' = true -> c_complete c = true \/ cf_sendSessionTickets cfg = true /\ client = false \/ (r = Panic /\ client = true) \/ r = Fuel \/ r = Err (EAlert AlertStatelessRetry).
Proof.
  induction os as [|o os IH]; intros c s c' r H S T Fr Cc.
  - destruct s; cbn in T; injection T as <- <-; auto 10.
  - destruct (is_connected c) eqn:Ic. { left. rewrite (inv_complete _ _ _ H). exact Ic. }
    assert (not_connected s) as Nc. { unfold is_connected in Ic. rewrite S in Ic. destruct s; try exact I. discriminate. }
    assert (handshake_loop E fuel (o :: os) c s = (call c, '(s, retry) <- handshake_turn E fuel o c s;
      if cf_nonBlocking (c_cfg c) then (c, if retry : bool then alert AlertStatelessRetry else Ok tt) else handshake_loop E fuel os c s)) as Eq.
    { destruct s; try reflexivity. contradiction. }
    rewrite Eq in T. clear Eq. pose proof (inv_turn E fuel o cfg client c s H S Nc) as I1.
    destruct (handshake_turn E fuel o c s) as [c1 r1] eqn:Tn. unfold all in I1; cbn [fst] in I1.
    destruct r1 as [[s1 retry]|e| |]; cbn [sbind] in T.
    + pose proof (turn_hstate _ _ _ _ _ _ _ _ Tn) as S1. destruct (cf_nonBlocking _).
      * injection T as <- <-. destruct retry; [auto 10|contradiction].
      * destruct (IH _ _ _ _ I1 S1 T Fr Cc) as [K|K]; [|auto].
        destruct (handshake_loop E fuel os c1 s1) as [c2 r2] eqn:L. injection T as -> ->. right.
        rewrite (inv_complete _ _ _ I1) in K. unfold is_connected in K. rewrite S1 in K. destruct s1; try discriminate.
        destruct os; cbn in L; injection L as <- <-; contradiction.
    + injection T as <- <-. right. pose proof (turn_failed _ _ _ _ _ _ _ _ _ H S Nc Tn I Cc) as [K|[K _]]; [left; exact K|discriminate].
    + injection T as <- <-. right. pose proof (turn_failed _ _ _ _ _ _ _ _ _ H S Nc Tn I Cc) as [K|K]; [left; exact K|right; left; split; [reflexivity|apply K]].
    + injection T as <- <-. auto 10.
Qed.

Lemma setup_state E o cfg client c c' r : inv cfg client c -> c_hState c = None -> handshakeSetup E o c = (c', r) -> c_complete c' = false.
Proof.
  intros H S T. assert (c_complete c = false) as Cf by (rewrite (inv_complete _ _ _ H); unfold is_connected; now rewrite S).
  revert T. unfold handshakeSetup. set (c1 := set_world c _). cbv zeta. assert (c_complete c1 = false) as C1 by exact Cf. destruct (c_isClient c1).
  - destruct (client_start _ _ _ _) as [w [[[s acts] rt]|e| |]]; cbn [sbind]; try (intros [= <- _]; exact C1).
    pose proof (cframe_actions E (o_ms o) (set_world c1 w) acts (set_world c1 w) (cframe_refl _)) as Q. destruct (takeActions _ _ _ _) as [c2 r2].
    destruct Q as (_ & _ & _ & Q & _). cbn in Q. destruct r2; cbn [sbind]; intros [= <- _]; cbn; congruence.
  - destruct (cf_cookieProtector _); [intros [= <- _]; exact C1|]. destruct (cf_requireCookie _); [|intros [= <- _]; exact C1].
    destruct (cf_nonBlocking _); [intros [= <- _]; exact C1|]. destruct (o_protector o); intros [= <- _]; exact C1.
Qed.
Lemma handshake_failed E fuel os cfg psks client input c c' e : used E (newConn cfg psks client input) c ->
  handshake E fuel os c = (c', Err e) -> e <> EAlert 253 -> c_complete c' = true -> cf_sendSessionTickets cfg = true /\ client = false.
Proof.
  intros U. apply inv_used in U. unfold handshake. destruct (c_complete c) eqn:Cc; [discriminate|]. destruct (c_hState c) as [s|] eqn:S.
  - intros T Ne Cc'. destruct (loop_failed _ _ _ _ _ _ _ _ _ U S T I Cc') as [K|[K|[[K _]|[K|K]]]]; try (exact K); try congruence; injection K as ->; contradiction.
  - destruct os as [|o os]; [discriminate|]. pose proof (inv_setup E o cfg client c U S) as I1.
    destruct (handshakeSetup E o c) as [c1 r1] eqn:T1. unfold all in I1; cbn [fst] in I1. pose proof (setup_state _ _ _ _ _ _ _ U S T1) as C1.
    destruct r1 as [u|e1| |]; cbn [sbind]; try discriminate; [|intros [= <- <-]; congruence].
    destruct (_ && _); [discriminate|]. destruct (c_hState c1) as [s|] eqn:S1; [|discriminate].
    intros T Ne Cc'. destruct (loop_failed _ _ _ _ _ _ _ _ _ I1 S1 T I Cc') as [K|[K|[[K _]|[K|K]]]]; try (exact K); try congruence; injection K as ->; contradiction.
Qed.

(** ** Gating *)

Lemma incomplete_write E cfg psks client input c b : used E (newConn cfg psks client input) c -> c_complete c = false ->
  (exists e, write c b = (c, (0%nat, Err e))) \/ (client = true /\ cf_allowEarlyData cfg = true /\ rl_epoch (l_core (c_out c)) = 1).
Proof.
  intros U Cc. apply inv_used in U. rewrite (inv_complete _ _ _ U) in Cc. unfold write, writable. rewrite Cc. cbn [orb].
  destruct (c_isClient c && _) eqn:K; cbn [negb]; [|left; eauto]. right. apply andb_prop in K as [K1 K2]. apply N.eqb_eq in K2.
  pose proof (inv_role _ _ _ U) as R. assert (client = true) as -> by congruence. split; [reflexivity|]. split; [|exact K2]. now apply (inv_early _ _ _ U).
Qed.
Lemma incomplete_read E cfg psks client input c fuel os n c' r : used E (newConn cfg psks client input) c -> c_complete c = false ->
  read E fuel os c n = (c', r) ->
  (c' = c /\ is_err r) \/
  (client = false /\ cf_allowEarlyData cfg = true /\ exists d rest, r = Ok d /\ w_early (c_world c) = d ++ rest /\ (List.length d <= n)%nat /\
     c' = set_world c (set_early (c_world c) rest)).
Proof.
  intros U Cc. apply inv_used in U. rewrite (inv_complete _ _ _ U) in Cc. unfold read. rewrite Cc. cbn [negb]. rewrite (inv_role _ _ _ U). destruct client.
  { intros [= <- <-]. left. split; [reflexivity|eexists; reflexivity]. }
  destruct (cf_allowEarlyData (c_cfg c)) eqn:A; cbn [negb]; [|intros [= <- <-]; left; split; [reflexivity|eexists; reflexivity]].
  destruct (w_early (c_world c)) as [|y early] eqn:W; intros [= <- <-]; [left; split; [reflexivity|eexists; reflexivity]|].
  right. split; [reflexivity|]. split.
  - pose proof (inv_cfg _ _ _ U) as G. unfold cfg_now in G. destruct (started c).
    + destruct G as [G|[(_ & x & G)|(_ & _ & _ & _ & p & G)]]; rewrite G in A; exact A.
    + destruct G as [G|G]; rewrite G in A; exact A.
  - exists (firstn n (y :: early)), (skipn n (y :: early)). split; [reflexivity|]. split; [now rewrite firstn_skipn|]. split; [apply firstn_le_length|reflexivity].
Qed.
Lemma incomplete_rest E cfg psks client input c o b label context n : used E (newConn cfg psks client input) c -> c_complete c = false ->
  is_err (computeExporter E c label context n) /\ exists e, sendKeyUpdate E o c b = (c, Err e).
Proof.
  intros U Cc. apply inv_used in U. pose proof (inv_complete _ _ _ U) as K. unfold computeExporter, sendKeyUpdate. rewrite Cc in *. rewrite <- K. cbn [negb].
  split; [eexists; reflexivity|eauto].
Qed.
