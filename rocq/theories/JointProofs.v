(** Two ends that shake hands over a stream: the phases they go through together. *)
From Verif Require Import Base Syntax Frame FrameProofs Record RecordSpec RecordProofs RecordProofs2 HandshakeProofs Timer Handshake Crypto CryptoSpec CryptoProofs Messages MessageProofs MessageProofs3 Pki Negotiation NegotiationProofs Machine MachineProofs Cookie Client Server StepProofs Conn ConnSpec ConnProofs EarlyProofs RunSpec RunProofs TraceProofs SessionSpec SessionProofs HelloProofs ClientRun ClientSession ServerRun ServerSession AgreeSpec AgreeProofs JointSpec ChannelSpec ChannelProofs WireProofs StillProofs PipeProofs MadeProofs TurnProofs HalfProofs JointHello TicketProofs.
From Verif Require KeyProofs.
Import FrameProofs.

(** ** One end *)

Lemma inv_tls cfg client c : inv cfg client c -> cf_useDTLS cfg = false -> cf_useDTLS (c_cfg c) = false.
Proof.
  intros I D. pose proof (inv_cfg _ _ _ I) as K. unfold cfg_now in K. destruct (started c).
  - destruct K as [->|[(_ & s & ->)|(_ & _ & _ & _ & p & ->)]]; exact D.
  - destruct K as [->| ->]; exact D.
Qed.
Lemma inv_handler cfg client c : inv cfg client c -> cf_extensionHandler cfg = None -> cf_extensionHandler (c_cfg c) = None.
Proof.
  intros I D. pose proof (inv_cfg _ _ _ I) as K. unfold cfg_now in K. destruct (started c).
  - destruct K as [->|[(_ & s & ->)|(_ & _ & _ & _ & p & ->)]]; exact D.
  - destruct K as [->| ->]; exact D.
Qed.
(** An end that is where its events lead it. *)
Definition sound (Q : oracle -> Prop) (E : env) (cfg : config) (psks : cache) (client : bool) (evs : list event) (c : conn) : Prop :=
  inv cfg client c /\ on_path Q E cfg psks client evs c.
Lemma returned_solid {A} (r : res A) : returned r -> (exists a, r = Ok a) \/ exists n, r = Err (EAlert n) /\ (n = 254 \/ n = 253).
Proof. destruct r as [a|e| |]; cbn; try contradiction; [eauto|]. intros (n & -> & N). eauto. Qed.
Lemma sound_turn (Q : oracle -> Prop) E cfg psks client evs fuel o c s c' r : Q o -> sound Q E cfg psks client evs c -> c_hState c = Some s -> not_connected s ->
  handshake_turn E fuel o c s = (c', r) -> returned r -> sound Q E cfg psks client (evs ++ turn_events E fuel o c s) c'.
Proof.
  intros Qo [I Pa] S Nc T R. split; [pose proof (inv_turn E fuel o cfg client c s I S Nc) as K; now rewrite T in K|].
  destruct (returned_solid _ R) as [[[s' retry] ->]|(n & -> & Hn)].
  - refine (proj1 (turn_path Q E cfg psks client evs fuel o c s c' (Ok (s', retry)) Qo Pa S Nc T _)). split; discriminate.
  - destruct (turn_blocked Q E cfg psks client evs fuel o c s c' n Pa S Nc T Hn) as [A ->]. now rewrite app_nil_r.
Qed.
Lemma sound_setup (Q : oracle -> Prop) E cfg psks client evs o c c' : Q o -> sound Q E cfg psks client evs c -> c_hState c = None -> handshakeSetup E o c = (c', Ok tt) ->
  sound Q E cfg psks client (evs ++ setup_events E o c) c'.
Proof.
  intros Qo [I Pa] S T. split; [pose proof (inv_setup E o cfg client c I S) as K; now rewrite T in K|].
  assert (evs = []) as -> by (unfold on_path in Pa; rewrite S in Pa; apply Pa).
  exact (proj2 (setup_path Q E cfg psks client o c c' (Ok tt) Qo (inv_role _ _ _ I) Pa S T) eq_refl).
Qed.
Lemma sound_firm (Q : oracle -> Prop) E cfg psks client evs o c c' r : Q o -> sound Q E cfg psks client evs c -> c_hState c = None -> handshakeSetup E o c = (c', r) -> solid r.
Proof.
  intros Qo [I Pa] S T. assert (evs = []) as -> by (unfold on_path in Pa; rewrite S in Pa; apply Pa).
  exact (proj1 (setup_path Q E cfg psks client o c c' r Qo (inv_role _ _ _ I) Pa S T)).
Qed.
Lemma sound_other (Q : oracle -> Prop) E cfg psks client evs c c' : sound Q E cfg psks client evs c -> other_use E c c' -> sound Q E cfg psks client evs c'.
Proof. intros [I Pa] O. split; [exact (inv_api E cfg client c c' (other_api _ _ _ O) I)|exact (other_path _ _ _ _ _ _ _ _ _ _ I Pa O)]. Qed.
Lemma sound_client (Q : oracle -> Prop) E cfg psks evs c s : mac_sized (v_prims E) -> sound Q E cfg psks true evs c -> c_hState c = Some s -> not_connected s -> client_at Q E cfg psks evs (c_world c) s.
Proof.
  intros M [_ Pa] S Nc. unfold on_path in Pa. rewrite S in Pa. destruct Pa as (w & Pa & K). eapply client_at_kept; [|exact (K Nc)]. now apply (client_path Q E cfg psks true).
Qed.
Lemma sound_server (Q : oracle -> Prop) E cfg psks evs c s : mac_sized (v_prims E) -> sound Q E cfg psks false evs c -> c_hState c = Some s -> not_connected s ->
  exists pr, server_at Q E cfg psks pr evs (c_world c) s.
Proof.
  intros M [_ Pa] S Nc. unfold on_path in Pa. rewrite S in Pa. destruct Pa as (w & Pa & K). apply server_path in Pa; [|reflexivity]. destruct Pa as (pr & Pa).
  exists pr. eapply server_at_kept; [exact Pa|exact (K Nc)].
Qed.

(** ** What is said and heard *)

Definition msgs (ts : list tok) : list (byte * bytes) := flat_map (fun t => match t with M m => [m] | K _ _ _ => [] end) ts.
Lemma msgs_app a b : msgs (a ++ b) = msgs a ++ msgs b.
Proof. apply flat_map_app. Qed.
Lemma msgs_M l : msgs (map M l) = l.
Proof. induction l as [|m l IH]; [reflexivity|]. cbn. now rewrite <- IH at 2. Qed.
Definition heard (m : byte * bytes) : hmsg := mkHm (fst m) 0 (snd m) false 0 (len (snd m)) None.
Definition whole (m : hmsg) : Prop := m = heard (pair_of m).
(** [re] has heard what [se] has said, but for what is in [ts]. *)
Definition talk (se re : list event) (ts : list tok) : Prop :=
  map pair_of (sent se) = map pair_of (received re) ++ msgs ts /\ Forall tls_msg (sent se) /\ Forall whole (received re).
Lemma pair_same m m' : tls_msg m -> whole m' -> pair_of m = pair_of m' -> same_message m m'.
Proof.
  intros (A & _ & B & _ & L) W Eq. rewrite W, <- Eq. unfold same_message, hm_marshal, heard, pair_of. cbn [hm_type hm_length hm_datagram hm_body fst snd].
  rewrite A, B, N.mod_small; [auto|]. eapply N.lt_trans; [exact L|]. reflexivity.
Qed.
Lemma pairs_same l l' : Forall tls_msg l -> Forall whole l' -> map pair_of l = map pair_of l' -> Forall2 same_message l l'.
Proof.
  revert l'. induction l as [|m l IH]; intros [|m' l'] A B Eq; try discriminate; constructor; inversion A; inversion B; subst; injection Eq as E1 E2 E3.
  - apply pair_same; auto. unfold pair_of. congruence.
  - apply IH; auto.
Qed.
Lemma talk_parts se re ts : talk se re ts -> exists a b, sent se = a ++ b /\ Forall2 same_message a (received re) /\ map pair_of b = msgs ts.
Proof.
  intros (A & B & C). apply map_eq_app in A. destruct A as (a & b & Es & Ea & Eb). exists a, b. split; [exact Es|]. split; [|exact Eb].
  rewrite Es in B. apply Forall_app in B. apply pairs_same; tauto.
Qed.
Lemma talk_delivered se re ts : talk se re ts -> delivered (sent se) (received re).
Proof. intros T. apply talk_parts in T. destruct T as (a & b & A & B & _). exists a, b. auto. Qed.
Lemma talk_all se re : talk se re [] -> Forall2 same_message (sent se) (received re).
Proof. intros T. apply talk_parts in T. destruct T as (a & b & A & B & C). destruct b; [|discriminate]. rewrite app_nil_r in A. now rewrite A. Qed.
Lemma talk_sends se re ts evs ts' : talk se re ts -> Forall tls_msg (sent evs) -> msgs ts' = msgs ts ++ map pair_of (sent evs) -> talk (se ++ evs) re ts'.
Proof. intros (A & B & C) F Eq. unfold talk. rewrite sends_app, map_app, A, Eq, <- app_assoc. split; [reflexivity|]. split; [apply Forall_app; auto|exact C]. Qed.
Lemma talk_silent se re ts evs : talk se re ts -> sent evs = [] -> talk (se ++ evs) re ts.
Proof. intros T S. apply (talk_sends _ _ _ _ _ T); rewrite S; [constructor|now rewrite app_nil_r]. Qed.
Lemma talk_reads se re m ts evs : talk se re (M m :: ts) -> received evs = [heard m] -> talk se (re ++ evs) ts.
Proof.
  intros (A & B & C) R. unfold talk. rewrite receives_app, R, map_app, <- app_assoc. split; [rewrite A; destruct m; reflexivity|]. split; [exact B|].
  apply Forall_app. split; [exact C|]. constructor; [|constructor]. destruct m; reflexivity.
Qed.
Lemma talk_deaf se re ts evs : talk se re ts -> received evs = [] -> talk se (re ++ evs) ts.
Proof. intros (A & B & C) R. unfold talk. rewrite receives_app, R, app_nil_r. auto. Qed.
Lemma sent_acts l : sent (map Sent l) = l.
Proof. apply sent_sent. Qed.
Lemma framed_small evs l : Forall framed l -> sent evs = l -> small evs -> Forall tls_msg l.
Proof.
  intros F Es S. unfold small in S. rewrite Es in S. clear Es. induction F as [|m l (A & B & C & D) _ IH]; [constructor|]. inversion S; subst. constructor; [|auto]. unfold tls_msg. auto 6.
Qed.

(** ** Keys out *)

Definition clear (x : hctx) : Prop := c_aead (cur (l_core (outl x))) = None.
Lemma heads_aead r p d ts r' p' d' : heads r p d ts r' p' d' -> rcore_ok r -> Forall (fun t => match t with M _ => True | K _ _ _ => False end) ts ->
  c_aead (cur r') = c_aead (cur r).
Proof.
  intros H. induction H as [r p d|r p d hdr body d1 pt ts r' p' d' _ _ _ _ _ IH|r p d m ts r' p' d' _ _ IH|r d e k iv ts r' p' d' _ IH]; intros R F; [reflexivity| | |].
  - rewrite (IH (after_record_ok _ R) F). unfold after_record. rewrite cur_set; [reflexivity|apply R].
  - inversion F; auto.
  - inversion F; contradiction.
Qed.
Lemma queue_clear xr tr x ts m x1 : pipe xr tr x ts -> tls_msg m -> queueMessage x m = (x1, Ok tt) -> clear x -> clear x1.
Proof.
  intros (T & r' & _ & R & S) Tm H C. destruct (queue_heads _ _ _ _ T Tm R S H) as (recs & r1 & _ & _ & R1 & [S1 _] & Hh).
  unfold clear in *. rewrite S1, (heads_aead _ _ _ _ _ _ _ Hh R) by repeat constructor. destruct S as [S _]. congruence.
Qed.
Lemma send_clear E now xr tr c ts m c' : pipe xr tr (c_ctx c) ts -> tls_msg m -> cf_useDTLS (c_cfg c) = false -> clear (c_ctx c) ->
  takeActions E now c [QueueHandshakeMessage m; SendQueuedHandshake] = (c', Ok tt) -> clear (c_ctx c').
Proof.
  intros Pp Tm Ht C H. cbn [takeActions takeAction] in H. destruct (queueMessage (c_ctx c) m) as [x r] eqn:Eq. destruct r as [[]|er| |]; cbn [or_alert sbind] in H; try discriminate.
  pose proof (queue_clear _ _ _ _ _ _ Pp Tm Eq C) as C1. destruct (pipe_queue _ _ _ _ _ _ Pp Tm Eq) as (((T1 & T2 & T3 & T4 & T5) & _) & _).
  change (c_ctx (upd_ctx c x)) with x in H. unfold sendQueued in H. rewrite T3 in H. cbn [writeMessages] in H. rewrite T1 in H. cbn [or_alert sbind] in H.
  change (c_cfg (upd_ctx (upd_ctx c x) (clearQueued x))) with (c_cfg c) in H. rewrite Ht in H. injection H as <-. exact C1.
Qed.
Lemma clear_still x x1 : still x x1 -> clear x -> clear x1.
Proof. intros (_ & (_ & _ & _ & _ & v & V) & _) C. unfold clear in *. rewrite V. exact C. Qed.
Lemma clear_read x x1 : has_read x x1 -> clear x -> clear x1.
Proof. intros (l & f & n & ->) C. exact C. Qed.

(** ** Turns that do not read *)

Lemma turn_firm E fuel o c s c' r : firm (next (v_prims E) (v_pki E) o fuel (c_world c) s) -> handshake_turn E fuel o c s = (c', r) -> returned r -> exists s' retry, r = Ok (s', retry).
Proof.
  intros F T R. destruct (returned_solid _ R) as [[[s' retry] ->]|(n & -> & Hn)]; [eauto|]. exfalso. revert T F. unfold handshake_turn.
  destruct (next _ _ _ _ _ _) as [w rn] eqn:N. intros T F. cbn [snd] in F. unfold firm in F. cbn [snd] in F.
  destruct rn as [[[s' acts] retry]|e| |]; try discriminate.
  - destruct (takeActions _ _ _ _) as [c1 [u|e| |]] eqn:Ta; try discriminate.
    + set (c2 := set_hState c1 s') in *. destruct s'; cbn [sbind] in T; try discriminate. destruct (on_connected E o c2 c0) as [c3 r3] eqn:Oc. apply on_connected_solid in Oc.
      destruct r3 as [u'|e| |]; cbn [sbind] in T; try discriminate. injection T as _ ->. eapply alert_solid; [exact Hn|exact Oc|reflexivity].
    + apply actions_alert in Ta. destruct Ta as (m & -> & L). pose proof (fail_alert_solid _ _ _ _ T L) as Q'. eapply alert_solid; [exact Hn|exact Q'|reflexivity].
  - destruct e as [a| |]; try discriminate. destruct (N.eqb_spec a AlertWouldBlock) as [->|Na]; [exact (proj1 F eq_refl)|].
    destruct (a =? AlertCloseNotify); [pose proof (fail_alert_solid _ _ _ _ T eq_refl) as Q'; eapply alert_solid; [exact Hn|exact Q'|reflexivity]|].
    injection T as _ ->. eapply alert_solid; [exact Hn|exact F|reflexivity].
Qed.

(** ** Actions *)

Lemma still_ctx E w0 w (P : prims) (X : pki) o s hm a : v_prims E = P -> step_of P X o w0 s hm = (w, a) -> hl_datagram (x_in (w_ctx w0)) = false -> hl_datagram (x_out (w_ctx w0)) = false -> still (w_ctx w0) (w_ctx w).
Proof. intros _ H A B. pose proof (st_step w0 P X o w0 s hm (still_refl _ A B)) as K. rewrite H in K. exact K. Qed.
Lemma pipe_tls xr tr x ts : pipe xr tr x ts -> hl_datagram (x_in xr) = false /\ hl_datagram (x_out x) = false.
Proof. intros ((T & _) & r' & ((A & _) & _) & _). auto. Qed.

(** ** Phases *)

Section Joint.
Variables (Qc Qs : oracle -> Prop) (E : env) (ccfg scfg : config) (cpsks spsks : cache).
Hypothesis ok : joint_ok Qc Qs E ccfg scfg cpsks spsks.
Notation P := (v_prims E).
Notation X := (v_pki E).
Notation csound := (sound Qc E ccfg cpsks true).
Notation ssound := (sound Qs E scfg spsks false).

Definition ktok (e : N) (s : suite) (sec : bytes) : tok := K e (v_gcm E (k_key (makeTrafficKeys P s sec))) (k_iv (makeTrafficKeys P s sec)).
Definition server_new (S : conn) : Prop := c_hState S = None \/ c_hState S = Some SStart.
Definition waiting (S : conn) (k : skeys) : Prop := exists s, c_hState S = Some s /\
  (s = SWaitFlight2 k \/ s = SWaitCert k \/ (exists cert, s = SWaitCV k cert) \/ exists peer, s = SWaitFinished k peer).

(** The hellos. *)
Definition greeting (C S : conn) (tsu tsd : list tok) : Prop :=
  ((c_hState C = None \/ exists st, c_hState C = Some (CStart st)) /\ server_new S /\ tsu = [] /\ tsd = []) \/
  exists ws, c_hState C = Some (CWaitSH ws) /\
    ((server_new S /\ tsu = [M (pair_of (ws_hello ws))] /\ tsd = []) \/
     (exists n, c_hState S = Some (SNegotiated n) /\ p_usingEarlyData (n_params n) = false /\ p_rejectedEarlyData (n_params n) = false /\ tsu = [] /\ tsd = []) \/
     (c_hState S = Some SStart /\ tsu = [] /\ exists hrr, tsd = [M (pair_of hrr)] /\ is_retry hrr = true)).
Definition phase_hello (ce se : list event) (C S : conn) (up down : bytes) : Prop := exists tsu tsd,
  pipe (c_ctx S) up (c_ctx C) tsu /\ pipe (c_ctx C) down (c_ctx S) tsd /\ talk ce se tsu /\ talk se ce tsd /\ quiet C /\ quiet S /\ clear (c_ctx C) /\ greeting C S tsu tsd.

(** The server's flight is on its way. *)
Definition flight_toks (k : skeys) (l : list hmsg) : list tok := map M (map pair_of l) ++ [ktok EpochApplicationData (sk_suite k) (sk_sts k)].
Definition phase_flight (ce se : list event) (C S : conn) (up down : bytes) : Prop :=
  exists ws k shs before hello shm eem fl sfin pre es dh, let ts := M (pair_of shm) :: ktok EpochHandshakeData (sk_suite k) shs :: flight_toks k (eem :: fl ++ [sfin]) in
    c_hState C = Some (CWaitSH ws) /\ waiting S k /\ half Qs P scfg spsks se k shs before hello shm eem fl sfin pre es dh /\ p_usingEarlyData (sk_params k) = false /\
    (let kk := makeTrafficKeys P (sk_suite k) (sk_chs k) in hole (c_ctx S) up (c_ctx C) EpochHandshakeData (v_gcm E (k_key kk)) (k_iv kk)) /\
    pipe (c_ctx C) down (c_ctx S) ts /\ talk ce se [] /\ talk se ce ts /\ quiet C /\ quiet S.

Lemma ctx_set c w : c_ctx (set_world c w) = w_ctx w. Proof. reflexivity. Qed.
Lemma ctx_hstate c s : c_ctx (set_hState c s) = c_ctx c. Proof. reflexivity. Qed.
Lemma step_pipe now xr tr x C w ts acts c1 : pipe xr tr x ts -> still x (w_ctx w) -> Forall action_ok acts -> cf_useDTLS (w_cfg w) = false ->
  takeActions E now (set_world C w) acts = (c1, Ok tt) ->
  pipe xr tr (c_ctx c1) (ts ++ toks E acts) /\ x_in (c_ctx c1) = set_rcore (w_ctx w) (in_after E acts (l_core (inl (w_ctx w)))).
Proof.
  intros Pp St F D Ta. destruct (acts_pipe E (jo_gcm _ _ _ _ _ _ _ ok) now _ _ _ (set_world C w) _ _ (pipe_writer _ _ _ _ _ Pp St) F D Ta) as (A & B & _). auto.
Qed.

(** The client sends a hello. *)
Lemma hello_sent ce se C S up down o now w0 st w s acts retry c1 : pipe (c_ctx S) up (c_ctx C) [] -> pipe (c_ctx C) down (c_ctx S) [] -> talk ce se [] -> talk se ce [] ->
  quiet C -> quiet S -> clear (c_ctx C) -> server_new S -> w_ctx w0 = c_ctx C -> w_early w0 = [] -> st_params st = no_params -> cf_allowEarlyData (w_cfg w0) = false -> cf_useDTLS (w_cfg w0) = false ->
  client_start P o w0 st = (w, Ok (s, acts, retry)) -> takeActions E now (set_world C w) acts = (c1, Ok tt) -> small (map Sent (sent_of acts)) ->
  phase_hello (ce ++ map Sent (sent_of acts)) se (set_hState c1 s) S up down.
Proof.
  intros Pu Pd Tu Td Qc1 Qs1 Cl Sn Wx We Np Ae Dt H Ta Sm.
  destruct (pipe_tls _ _ _ _ Pu) as [_ Do]. destruct (pipe_tls _ _ _ _ Pd) as [Di _].
  assert (still (c_ctx C) (w_ctx w)) as St.
  { pose proof (st_client_start w0 P o w0 st) as K. rewrite H in K. unfold wstill in K. rewrite <- Wx. apply K. apply still_refl; rewrite Wx; assumption. }
  pose proof (frame_client_start w0 P o w0 st (frame_refl _)) as Fr. rewrite H in Fr. destruct Fr as (Fc & _ & Fe). cbn [fst] in Fc, Fe.
  assert (plain w0) as Pl by (unfold plain; now rewrite Wx).
  pose proof (start_framed _ _ _ _ _ _ _ _ Pl H) as Fm.
  destruct (start_sends _ _ _ _ _ _ _ _ Np Ae H) as (ws & -> & _ & _ & -> & ->). cbn [sent_of flat_map List.app] in *.
  assert (Forall tls_msg [ws_hello ws]) as Tm by (eapply framed_small; [exact Fm| |exact Sm]; reflexivity).
  assert (tls_msg (ws_hello ws)) as Tm1 by now inversion Tm.
  pose proof (pipe_writer _ _ _ _ _ Pu St) as Pu1. pose proof (pipe_reader _ _ _ _ _ Pd St) as Pd1.
  assert (cf_useDTLS (c_cfg (set_world C w)) = false) as Dt1 by (change (cf_useDTLS (w_cfg w) = false); congruence).
  assert (Forall action_ok [QueueHandshakeMessage (ws_hello ws); SendQueuedHandshake]) as Ao by (repeat constructor; apply Tm1).
  destruct (step_pipe now _ _ _ C w _ _ _ Pu St Ao Dt1 Ta) as (Pu2 & Xi).
  pose proof (send_clear E now _ _ (set_world C w) _ _ _ Pu1 Tm1 Dt1 (clear_still _ _ St Cl) Ta) as Cl2.
  cbn [in_after fold_left in_step_of] in Xi. rewrite set_rcore_same in Xi.
  cbn [toks flat_map tok_of List.app] in Pu2. pose proof (acts_quiet E now C w _ c1 _ Qc1 ltac:(congruence) Ta) as Qc2.
  exists [M (pair_of (ws_hello ws))], []. rewrite ctx_hstate. split; [exact Pu2|]. split; [exact (pipe_rx _ _ _ _ _ Pd1 Xi)|].
  split; [apply (talk_sends _ _ _ _ _ Tu); [exact Tm|reflexivity]|]. split; [apply talk_deaf; [exact Td|reflexivity]|].
  split; [exact Qc2|]. split; [exact Qs1|]. split; [exact Cl2|]. right. exists ws. split; [reflexivity|]. left. auto.
Qed.

Lemma hello_client_setup ce se C S up down o C' : csound ce C -> phase_hello ce se C S up down -> c_hState C = None -> handshakeSetup E o C = (C', Ok tt) ->
  small (setup_events E o C) -> phase_hello (ce ++ setup_events E o C) se C' S up down.
Proof.
  intros [I Pa] (tsu & tsd & Pu & Pd & Tu & Td & Q1 & Q2 & Cl & G) Hs T Sm.
  destruct G as [(_ & Sn & -> & ->)|(ws & Hc & _)]; [|congruence].
  destruct (client_setup _ _ _ _ (inv_role _ _ _ I) T) as (w & s & acts & retry & c1 & Cs & Ta & -> & Ev). rewrite Ev in *.
  destruct (world_init_ctx (c_world C)) as [Wx We]. unfold on_path in Pa. rewrite Hs in Pa. destruct Pa as (_ & Cc & _).
  assert (w_cfg (world_init (c_world C)) = cfg_init ccfg) as Wc by (unfold c_cfg in Cc; rewrite <- Cc; unfold world_init; now destruct (cf_psks (w_cfg (c_world C)))).
  eapply hello_sent; [exact Pu|exact Pd|exact Tu|exact Td|exact Q1|exact Q2|exact Cl|exact Sn|exact Wx| | | | |exact Cs|exact Ta|exact Sm].
  - rewrite We. apply Q1.
  - reflexivity.
  - rewrite Wc. exact (jo_early _ _ _ _ _ _ _ ok).
  - rewrite Wc. exact (jo_ctls _ _ _ _ _ _ _ ok).
Qed.

Lemma read_tls x x1 : has_read x x1 -> hl_datagram (x_in x1) = hl_datagram (x_in x) /\ hl_datagram (x_out x1) = hl_datagram (x_out x).
Proof. intros (l & f & n & ->). split; reflexivity. Qed.
Lemma step_still o w x1 s hm w' a : has_read (w_ctx w) x1 -> hl_datagram (x_in (w_ctx w)) = false -> hl_datagram (x_out (w_ctx w)) = false ->
  step_of P X o (set_ctx w x1) s hm = (w', a) -> still x1 (w_ctx w').
Proof.
  intros H A B Hs. destruct (read_tls _ _ H) as [K1 K2]. pose proof (st_step (set_ctx w x1) P X o (set_ctx w x1) s hm) as K. rewrite Hs in K.
  apply K. apply still_refl; cbn; congruence.
Qed.

Lemma hello_client_turn ce se C S up down fuel o s C' r : Qc o -> csound ce C -> phase_hello ce se C S up down -> c_hState C = Some s -> handshake_turn E fuel o C s = (C', r) -> returned r ->
  small (turn_events E fuel o C s) -> phase_hello (ce ++ turn_events E fuel o C s) se C' S up down.
Proof.
  intros Qo Sd (tsu & tsd & Pu & Pd & Tu & Td & Q1 & Q2 & Cl & G) Hs T R Sm.
  destruct (pipe_tls _ _ _ _ Pu) as [_ Do]. destruct (pipe_tls _ _ _ _ Pd) as [Di _].
  pose proof (inv_tls _ _ _ (proj1 Sd) (jo_ctls _ _ _ _ _ _ _ ok)) as Dt.
  destruct G as [([Hn|(st & Hc)] & Sn & -> & ->)|(ws & Hc & G)]; [congruence| |]; rewrite Hc in Hs; injection Hs as <-.
  - destruct (turn_firm E fuel o C (CStart st) C' r (firm_client_start P o (c_world C) st) T R) as (s' & retry & ->). apply turn_done in T. destruct T as (w & acts & c1 & N & Ta & Td').
    pose proof (sound_client _ _ _ _ _ _ _ (jo_sized _ _ _ _ _ _ _ ok) Sd Hc I) as At. cbn [client_at] in At. destruct At as ((_ & _ & ([l L] & _) & _) & _ & _ & Np & _).
    unfold turn_events in *. rewrite N in *. cbn [snd read_by List.app] in *. rewrite queued_sent in *. change (next P X o fuel (c_world C) (CStart st)) with (client_start P o (c_world C) st) in N.
    assert (cf_allowEarlyData (w_cfg (c_world C)) = false) as Ae by (rewrite L; exact (jo_early _ _ _ _ _ _ _ ok)).
    assert (C' = set_hState c1 s') as ->. { destruct Td' as [[_ ->]|(k & -> & _)]; [reflexivity|]. destruct (start_sends _ _ _ _ _ _ _ _ Np Ae N) as (ws & K & _). discriminate. }
    eapply hello_sent; [exact Pu|exact Pd|exact Tu|exact Td|exact Q1|exact Q2|exact Cl|exact Sn|reflexivity|apply Q1|exact Np|exact Ae|exact Dt|exact N|exact Ta|exact Sm].
  - destruct Pd as (Tx & r' & Ah & Rr & Sy).
    assert (waits tsd []) as Wt. { destruct G as [(_ & _ & ->)|[(n & _ & _ & _ & _ & ->)|(_ & _ & hrr & -> & _)]]; [right|right|left]; eauto. }
    destruct (turn_reads E fuel o C (CWaitSH ws) C' r _ _ _ _ I Ah Wt T R) as [(e & x1 & -> & -> & Hr & A1 & Ev)|(m & ts' & x1 & w & acts & s' & retry & c1 & Em & Hr & A1 & -> & H)].
    + rewrite Ev in *. rewrite app_nil_r. exists tsu, tsd. split; [exact (pipe_has_read _ _ _ _ _ Pu Hr)|]. split; [split; [exact Tx|]; exists r'; auto|].
      split; [exact Tu|]. split; [exact Td|]. split; [exact Q1|]. split; [exact Q2|]. split; [exact (clear_read _ _ Hr Cl)|]. right. exists ws. split; [exact Hc|exact G].
    + cbv zeta in H. destruct H as (Hst & Hn & Ta & Td' & Ev). destruct G as [(_ & _ & ->)|[(n & _ & _ & _ & _ & ->)|(Hss & -> & hrr & -> & Ir)]]; try discriminate.
      injection Em as <- <-. pose proof (step_still _ _ _ _ _ _ _ Hr Di Do Hst) as St. cbn [step_of] in Hst.
      pose proof Hst as Hst0. apply client_wait_sh_ok in Hst. destruct Hst as (sh & n & vs & Ht & Us & _ & _ & _ & Hst).
      pose proof (retry_iff _ _ _ Ht Us) as Ri. change (is_retry hrr = beqb (sh_random sh) hrrRandomSentinel) in Ri. rewrite Ir in Ri. symmetry in Ri. apply beqb_eq in Ri.
      destruct Hst as [[_ Hst]|[Ne _]]; [|contradiction]. apply client_hrr_ok in Hst. destruct Hst as (cookie & ps & exts & _ & _ & -> & -> & _ & _ & Wc & _).
      destruct Td' as [[_ ->]|(k & Ek & _)]; [|discriminate]. cbn [takeActions takeAction sbind] in Ta. injection Ta as <-.
      rewrite Ev in *. cbn [sent_of flat_map map] in *. exists [], []. rewrite ctx_hstate.
      pose proof (pipe_writer _ _ _ _ _ (pipe_has_read _ _ _ _ _ Pu Hr) St) as Pu1. pose proof (clear_still _ _ St (clear_read _ _ Hr Cl)) as Cl1.
      split; [exact (pipe_reset _ _ _ _ 1 Pu1 Cl1)|].
      split; [|split; [apply talk_silent; [exact Tu|reflexivity]|]; split; [exact (talk_reads _ _ _ _ [Received (heard (pair_of hrr))] Td eq_refl)|]].
      * apply (pipe_rx (w_ctx w)); [|reflexivity]. refine (pipe_reader x1 _ _ _ _ (conj Tx (ex_intro _ r' _)) St). auto.
      * split; [split; [apply Q1|]; split; [|apply Q1]|split; [exact Q2|split; [|left; split; [right; eexists; reflexivity|split; [now right|auto]]]]].
        -- assert (w_early w = w_early (c_world C)) as We by (refine (next_early P X o fuel (c_world C) (CWaitSH ws) w _ _ Hn); discriminate). change (w_early w = []). rewrite We. apply Q1.
        -- unfold clear. cbn. unfold cur, get_cs, resetClear. cbn [r_heap r_cipher]. rewrite app_nth2, Nat.sub_diag by lia. reflexivity.
Qed.

Lemma hello_server_setup ce se C S up down o S' : ssound se S -> phase_hello ce se C S up down -> c_hState S = None -> handshakeSetup E o S = (S', Ok tt) ->
  phase_hello ce (se ++ setup_events E o S) C S' up down.
Proof.
  intros [I _] (tsu & tsd & Pu & Pd & Tu & Td & Q1 & Q2 & Cl & G) Hs T.
  destruct (server_setup _ _ _ _ (inv_role _ _ _ I) T) as (w & -> & Wx & We & ->). rewrite app_nil_r. exists tsu, tsd. rewrite ctx_hstate, ctx_set, Wx.
  repeat (split; [assumption|]). split; [destruct Q2 as (A & B & D); split; [exact A|]; split; [|exact D]; cbn; congruence|]. split; [exact Cl|].
  destruct G as [(A & _ & B)|(ws & Hc & [(_ & B)|[(n & A & _)|(A & _)]])]; try congruence; [left|right; exists ws; split; [exact Hc|]; left]; (split; [assumption|]) || idtac; split; auto; now right.
Qed.

Lemma hello_server_turn ce se C S up down fuel o S' r : Qs o -> csound ce C -> ssound se S -> phase_hello ce se C S up down -> c_hState S = Some SStart -> handshake_turn E fuel o S SStart = (S', r) -> returned r ->
  small (turn_events E fuel o S SStart) -> phase_hello ce (se ++ turn_events E fuel o S SStart) C S' up down.
Proof.
  intros Qo Sc Sd (tsu & tsd & Pu & Pd & Tu & Td & Q1 & Q2 & Cl & G) Hs T R Sm.
  destruct (pipe_tls _ _ _ _ Pu) as [Di _]. destruct (pipe_tls _ _ _ _ Pd) as [_ Do].
  pose proof (inv_tls _ _ _ (proj1 Sd) (jo_stls _ _ _ _ _ _ _ ok)) as Dt.
  destruct Pu as (Tx & r' & Ah & Rr & Sy).
  assert (waits tsu []) as Wt. { destruct G as [(_ & _ & -> & _)|(ws & _ & [(_ & -> & _)|[(n & _ & _ & _ & -> & _)|(_ & -> & _)]])]; [right|left|right|right]; eauto. }
  destruct (turn_reads E fuel o S SStart S' r _ _ _ _ I Ah Wt T R) as [(e & x1 & -> & -> & Hr & A1 & Ev)|(m & ts' & x1 & w & acts & s' & retry & c1 & Em & Hr & A1 & -> & H)].
  - rewrite Ev in *. rewrite app_nil_r. exists tsu, tsd. split; [split; [exact Tx|]; exists r'; auto|]. split; [exact (pipe_has_read _ _ _ _ _ Pd Hr)|].
    split; [exact Tu|]. split; [exact Td|]. split; [exact Q1|]. split; [exact Q2|]. split; [exact Cl|].
    destruct G as [(A & _ & B)|(ws & Hc & [(_ & B)|[(n & A & _)|(A & B)]])]; [left; split; [exact A|split; [now right|exact B]]|right; exists ws; split; [exact Hc|left; split; [now right|exact B]]|congruence|].
    right. exists ws. split; [exact Hc|]. right. right. auto.
  - cbv zeta in H. destruct H as (Hst & Hn & Ta & Td' & Ev). destruct G as [(_ & _ & -> & _)|(ws & Hc & [(_ & -> & ->)|[(n & _ & _ & _ & -> & _)|(_ & -> & _)]])]; try discriminate.
    injection Em as <- <-. pose proof (step_still _ _ _ _ _ _ _ Hr Di Do Hst) as St. cbn [step_of] in Hst.
    assert (w_early w = w_early (c_world S)) as We by (refine (next_early P X o fuel (c_world S) SStart w _ _ Hn); discriminate).
    assert (w_early w = []) as We0 by (rewrite We; apply Q2).
    destruct (sound_server _ _ _ _ _ _ _ (jo_sized _ _ _ _ _ _ _ ok) Sd Hs I) as (pr & [[[Sw _] _] _]).
    assert (cf_extensionHandler (w_cfg (c_world S)) = None) as Nh by (destruct Sw as [->|[_ ->]]; exact (jo_shandler _ _ _ _ _ _ _ ok)).
    destruct (read_tls _ _ Hr) as [Di1 Do1].
    assert (w_kind (set_ctx (c_world S) x1) = (cf_useDTLS ccfg, cf_useDTLS ccfg)) as Kw.
    { unfold w_kind. cbn [w_ctx set_ctx]. rewrite Di1, Do1. change (w_ctx (c_world S)) with (c_ctx S). rewrite Di, Do, (jo_ctls _ _ _ _ _ _ _ ok). reflexivity. }
    pose proof (sound_client _ _ _ _ _ _ _ (jo_sized _ _ _ _ _ _ _ ok) Sc Hc I) as At. cbn [client_at] in At.
    destruct (wait_sh_quiet Qc E ccfg cpsks (jo_early _ _ _ _ _ _ _ ok) (jo_chandler _ _ _ _ _ _ _ ok) _ _ _ At) as (_ & _ & ch & Mc & Vc & Oc).
    assert (pipe x1 up (c_ctx C) []) as Pu1 by (split; [exact Tx|]; exists r'; auto).
    pose proof (pipe_reader _ _ _ _ _ Pu1 St) as Pu2. pose proof (pipe_has_read _ _ _ _ _ Pd Hr) as Pd1.
    pose proof (talk_reads _ _ _ _ [Received (heard (pair_of (ws_hello ws)))] Tu eq_refl) as Tu1.
    assert (plain (set_ctx (c_world S) x1)) as Pl by (unfold plain; cbn [w_ctx set_ctx]; rewrite Do1; exact Do).
    pose proof (server_start_framed _ _ _ _ _ _ _ _ _ (eq_trans Di1 Di : hl_datagram (x_in (w_ctx (set_ctx (c_world S) x1))) = false) Pl Hst) as Fm.
    pose proof Hst as Hst0. apply server_start_ok in Hst.
    destruct Hst as (ch' & exts & found & x & v & first & dhs & dh & chosen & suite & hrr & again & w1 & w2 & w3 & _ & _ & _ & _ & _ & _ & _ & _ & _ & _ & _ & Hst). cbv zeta in Hst.
    destruct (pskModeNegotiation _ _ _) as [usingDH usingPSK]. destruct Hst as (_ & _ & Sr & -> & _ & Hst).
    pose proof (acts_quiet E (o_ms o) S w _ c1 _ Q2 We0 Ta) as Q3.
    assert (cf_useDTLS (w_cfg w) = false) as Dw.
    { pose proof (frame_server_start (set_ctx (c_world S) x1) P X o (set_ctx (c_world S) x1) (heard (pair_of (ws_hello ws))) (frame_refl _)) as Fr. unfold heard in Fr. rewrite Hst0 in Fr. destruct Fr as (Fr & _). cbn [fst] in Fr. rewrite Fr. exact Dt. }
    rewrite Ev in *. destruct again.
    + destruct Hst as (-> & -> & Ea). destruct Td' as [[_ ->]|(k & Ek & _)]; [|discriminate].
      apply server_retry_ok in Sr. destruct Sr as [_ Sr].
      assert (exists m, hrr = Some m /\ is_retry m = true) as (m & -> & Ir).
      { destruct (cf_requireCookie (w_cfg w1)); [|destruct Sr; discriminate]. destruct (cx_cookie x); [|destruct Sr; discriminate].
        destruct Sr as [(t & m & _ & -> & _ & G)|(_ & _ & Z)]; [|discriminate]. exists m. split; [reflexivity|]. apply (hrr_with scfg) in G. apply G. }
      subst acts. cbn [sent_of flat_map List.app map] in *.
      assert (Forall tls_msg [m]) as Tm by (eapply framed_small; [exact Fm| |exact Sm]; reflexivity). assert (tls_msg m) as Tm1 by now inversion Tm.
      assert (Forall action_ok [QueueHandshakeMessage m; SendQueuedHandshake]) as Ao by (repeat constructor; apply Tm1).
      destruct (step_pipe (o_ms o) _ _ _ S w2 _ _ _ Pd1 St Ao Dw Ta) as (Pd2 & Xi). cbn [in_after fold_left in_step_of] in Xi. rewrite set_rcore_same in Xi.
      cbn [toks flat_map tok_of List.app] in Pd2. exists [], [M (pair_of m)]. rewrite ctx_hstate. split; [exact (pipe_rx _ _ _ _ _ Pu2 Xi)|]. split; [exact Pd2|].
      split; [apply (talk_reads _ _ _ _ _ Tu); reflexivity|].
      split; [apply (talk_sends _ _ _ _ _ Td); [exact Tm|reflexivity]|]. split; [exact Q1|]. split; [exact Q3|]. split; [exact Cl|]. right. exists ws. split; [exact Hc|]. right. right.
      split; [reflexivity|]. split; [reflexivity|]. exists m. auto.
    + destruct Hst as (_ & cert & scheme & proto & _ & _ & -> & _ & Es). destruct (earlyDataNegotiation _ _ _) as [ue rj]. subst s'.
      destruct Td' as [[_ ->]|(k & Ek & _)]; [|discriminate]. cbn [takeActions] in Ta. injection Ta as <-.
      destruct (server_no_early _ _ _ _ _ _ _ _ _ _ ccfg Hst0 Nh Kw Mc Vc Oc) as [Ne Nr].
      exists [], []. rewrite ctx_hstate. cbn [sent_of flat_map map].
      split; [exact Pu2|]. split; [exact (pipe_writer _ _ _ _ _ Pd1 St)|]. split; [exact Tu1|]. split; [apply talk_silent; [exact Td|reflexivity]|]. split; [exact Q1|]. split; [exact Q3|]. split; [exact Cl|].
      right. exists ws. split; [exact Hc|]. right. left. eexists. split; [reflexivity|]. auto.
Qed.

Lemma toks_queue l : toks E (map QueueHandshakeMessage l) = map M (map pair_of l).
Proof. induction l as [|m l IH]; [reflexivity|]. cbn [map]. unfold toks in *. cbn [flat_map tok_of List.app]. now rewrite IH. Qed.
Lemma sent_queue l : sent_of (map QueueHandshakeMessage l) = l.
Proof. induction l as [|m l IH]; [reflexivity|]. cbn. now f_equal. Qed.
Lemma toks_app a b : toks E (a ++ b) = toks E a ++ toks E b.
Proof. apply flat_map_app. Qed.
Lemma in_after_app a b r : in_after E (a ++ b) r = in_after E b (in_after E a r).
Proof. apply fold_left_app. Qed.
Lemma in_after_queue l r : in_after E (map QueueHandshakeMessage l) r = r.
Proof. induction l as [|m l IH]; [reflexivity|exact IH]. Qed.
Lemma known_suite n s : cipherSuiteMap n = Some s -> cipherSuiteMap (s_id s) = Some s.
Proof. unfold cipherSuiteMap. destruct (_ =? _); [intros [= <-]; reflexivity|]. destruct (_ =? _); [intros [= <-]; reflexivity|discriminate]. Qed.
Lemma long_iv n s sec : cipherSuiteMap n = Some s -> (8 <= List.length (k_iv (makeTrafficKeys P s sec)))%nat.
Proof. intros H. apply iv_long; [exact (jo_sized _ _ _ _ _ _ _ ok)|exact (known_suite _ _ H)]. Qed.

Lemma hello_server_flight ce se C S up down fuel o n S' r : csound ce C -> ssound se S -> phase_hello ce se C S up down -> c_hState S = Some (SNegotiated n) ->
  handshake_turn E fuel o S (SNegotiated n) = (S', r) -> returned r -> small (turn_events E fuel o S (SNegotiated n)) ->
  phase_flight ce (se ++ turn_events E fuel o S (SNegotiated n)) C S' up down.
Proof.
  intros Sc Sd (tsu & tsd & Pu & Pd & Tu & Td & Q1 & Q2 & Cl & G) Hs T R Sm.
  destruct (pipe_tls _ _ _ _ Pu) as [Di _]. destruct (pipe_tls _ _ _ _ Pd) as [_ Do].
  pose proof (inv_tls _ _ _ (proj1 Sd) (jo_stls _ _ _ _ _ _ _ ok)) as Dt.
  destruct G as [(_ & [A|A] & _)|(ws & Hc & [([A|A] & _)|[(n' & A & Ne & Nr & -> & ->)|(A & _)]])]; try congruence. rewrite A in Hs. injection Hs as ->.
  destruct (turn_firm E fuel o S (SNegotiated n) S' r (firm_server_negotiated P X o (c_world S) n) T R) as (s' & retry & ->). apply turn_done in T. destruct T as (w & acts & c1 & N & Ta & Td').
  destruct (sound_server _ _ _ _ _ _ _ (jo_sized _ _ _ _ _ _ _ ok) Sd A I) as (pr & At). cbn [server_at] in At.
  unfold turn_events in *. rewrite N in *. cbn [snd read_by List.app] in *. rewrite queued_sent in *. change (next P X o fuel (c_world S) (SNegotiated n)) with (server_negotiated P X o (c_world S) n) in N.
  assert (exists k, keys_state s' k /\ retry = false) as (k & Ks & ->).
  { pose proof N as N1. apply server_negotiated_ok in N1. destruct N1 as (random & hexts & eexts & shm & ps & w3 & w4 & eem & finm & auth & ca & _ & _ & Ts & _ & _ & N1). cbv zeta in N1.
    destruct (handshake_secrets _ _ _ _ _) as [[chs shs] ms]. destruct N1 as (_ & Te & _ & _ & _ & Ha & Tf & _ & _ & -> & Es & _ & _).
    match type of Es with s' = if _ then SWaitEOED ?kk else _ => exists kk end. split; [exact Es|reflexivity]. }
  destruct (flight_half Qs E scfg spsks pr (jo_sized _ _ _ _ _ _ _ ok) _ _ _ _ _ _ _ _ At N Ks) as (shs & before & hello & shm & eem & fl & sfin & pre & es & dh & Hf & _ & Ue & Rj & Ea).
  specialize (Ea Ne). rewrite Ne in Ue. rewrite Nr in Rj. unfold keys_state in Ks. rewrite Ue, Rj in Ks. subst s'.
  destruct Td' as [[_ ->]|(k' & Ek & _)]; [|discriminate].
  assert (still (c_ctx S) (w_ctx w)) as St.
  { pose proof (st_server_negotiated (c_world S) P X o (c_world S) n) as K. rewrite N in K. apply K. apply still_refl; assumption. }
  pose proof (frame_server_negotiated (c_world S) P X o (c_world S) n (frame_refl _)) as Fr. rewrite N in Fr. destruct Fr as (Fc & _ & Fe). cbn [fst] in Fc, Fe.
  pose proof (server_negotiated_framed _ _ _ _ _ _ _ _ _ (Do : plain (c_world S)) N) as Fm.
  assert (sent_of acts = shm :: eem :: fl ++ [sfin]) as Sa.
  { rewrite Ea, !sent_app, sent_queue. cbn [sent_of List.app]. now rewrite app_nil_r. }
  rewrite Sa in *.
  assert (Forall tls_msg (shm :: eem :: fl ++ [sfin])) as Tm by (eapply framed_small; [exact Fm| |exact Sm]; apply sent_acts).
  pose proof (hf_suite _ _ _ _ _ _ _ _ _ _ _ _ _ _ _ _ Hf) as Cs.
  assert (Forall action_ok acts) as Ao.
  { rewrite Ea. inversion Tm as [|? ? Tm1 Tm2]; subst. constructor; [exact Tm1|]. constructor; [exact (long_iv _ _ _ Cs)|]. cbn [List.app]. apply Forall_app. split.
    - apply Forall_map. eapply Forall_impl; [|exact Tm2]. auto.
    - constructor; [exact I|]. constructor; [exact (long_iv _ _ _ Cs)|]. constructor; [exact I|constructor]. }
  destruct (step_pipe (o_ms o) _ _ _ S w _ _ _ Pd St Ao (eq_trans (f_equal cf_useDTLS Fc) Dt) Ta) as (Pd2 & Xi).
  pose proof (acts_quiet E (o_ms o) S w _ c1 _ Q2 (eq_trans Fe (proj1 (proj2 Q2))) Ta) as Q3.
  rewrite Ea in Pd2, Xi. rewrite !toks_app, toks_queue in Pd2. rewrite !in_after_app, in_after_queue in Xi. cbn [toks flat_map tok_of in_after fold_left in_step_of List.app] in Pd2, Xi.
  exists ws, k, shs, before, hello, shm, eem, fl, sfin, pre, es, dh. cbv zeta. rewrite ctx_hstate.
  split; [exact Hc|]. split; [exists (SWaitFlight2 k); auto|]. split; [exact Hf|]. split; [exact Ue|].
  split; [exact (hole_made _ _ _ _ _ _ _ (pipe_reader _ _ _ _ _ Pu St) Xi)|].
  split; [exact Pd2|]. split; [apply talk_deaf; [exact Tu|apply received_sent]|]. split; [|split; [exact Q1|exact Q3]].
  apply (talk_sends _ _ _ _ _ Td); rewrite sent_acts; [exact Tm|]. unfold flight_toks. cbn [map msgs flat_map List.app]. rewrite msgs_app. fold (msgs (map M (map pair_of (fl ++ [sfin])))).
  rewrite msgs_M. cbn. now rewrite app_nil_r.
Qed.

(** A server that waits for the client's answer. *)
Definition waits_with (s : hstate) (k : skeys) : Prop := s = SWaitFlight2 k \/ s = SWaitCert k \/ (exists cert, s = SWaitCV k cert) \/ exists peer, s = SWaitFinished k peer.
Lemma set_same c x s : c_hState c = Some s -> upd_ctx c x = set_hState (upd_ctx c x) s.
Proof. destruct c. cbn. now intros ->. Qed.
Lemma waiting_turn S k fuel o s S' r tr ts r' d' : waits_with s k -> c_hState S = Some s -> ahead (c_ctx S) tr ts r' d' -> waits ts d' ->
  handshake_turn E fuel o S s = (S', r) -> returned r ->
  (exists x1 s', S' = set_hState (upd_ctx S x1) s' /\ waits_with s' k /\ has_read (c_ctx S) x1 /\ ahead x1 tr ts r' d' /\ turn_events E fuel o S s = []) \/
  (reads s /\ exists m ts' x1 w acts s' retry c1, ts = M m :: ts' /\ has_read (c_ctx S) x1 /\ ahead x1 tr ts' r' d' /\ r = Ok (s', retry) /\
     step_of P X o (set_ctx (c_world S) x1) s (heard m) = (w, Ok (s', acts, retry)) /\ next P X o fuel (c_world S) s = (w, Ok (s', acts, retry)) /\
     takeActions E (o_ms o) (set_world S w) acts = (c1, Ok tt) /\ turned E o c1 s' S' /\
     turn_events E fuel o S s = Received (heard m) :: map Sent (sent_of acts)).
Proof.
  intros Ws Hs Ah Wt T R.
  assert (s = SWaitFlight2 k \/ reads s) as [->|Rs] by (destruct Ws as [->|[->|[[cert ->]|[peer ->]]]]; [now left|right; exact I..]).
  - left. assert (firm (next P X o fuel (c_world S) (SWaitFlight2 k))) as Fi by (cbn [next]; unfold server_wait_flight2, done; apply firm_pair; split; discriminate).
    destruct (turn_firm E fuel o S (SWaitFlight2 k) S' r Fi T R) as (s' & retry & ->). apply turn_done in T. destruct T as (w & acts & c1 & N & Ta & Td).
    unfold turn_events. rewrite N. cbn [snd read_by]. cbn [next] in N. apply server_wait_flight2_ok in N. destruct N as (-> & _ & -> & Es).
    cbn [takeActions] in Ta. injection Ta as <-. exists (c_ctx S), s'.
    assert (waits_with s' k) as W' by (destruct (p_usingClientAuth (sk_params k)); subst s'; [right; left; reflexivity|right; right; right; eauto]).
    destruct Td as [[_ ->]|(k' & -> & _)]; [|destruct (p_usingClientAuth (sk_params k)); discriminate].
    split; [|split; [exact W'|split; [apply has_read_refl|split; [exact Ah|reflexivity]]]]. destruct S as [[cf ps cx ea ha] cl st hs co rb cd]. reflexivity.
  - destruct (turn_reads E fuel o S s S' r _ _ _ _ Rs Ah Wt T R) as [(e & x1 & -> & -> & Hr & A1 & Ev)|H].
    + left. exists x1, s. split; [now apply set_same|auto].
    + right. split; [exact Rs|exact H].
Qed.

(** The client has the server's keys, and some of its flight. *)
Definition keys_of (s : hstate) : option ckeys :=
  match s with CWaitEE k | CWaitCertCR k | CWaitCert k _ | CWaitCV k _ _ | CWaitFinished k _ _ _ _ => Some k | _ => None end.
Definition is_ee (s : hstate) : bool := match s with CWaitEE _ => true | _ => false end.
Definition same_keys (ck : ckeys) (k : skeys) (shs : bytes) : Prop :=
  ck_suite ck = sk_suite k /\ ck_chs ck = sk_chs k /\ ck_shs ck = shs /\ ck_master ck = sk_master k /\ p_clientSendingEarlyData (ck_params ck) = false.
Definition phase_keys (ce se : list event) (C S : conn) (up down : bytes) : Prop :=
  exists cs ck k shs before hello shm eem fl sfin pre es dh cevs0 got seen rest, let ts := flight_toks k (rest ++ [sfin]) in
    c_hState C = Some cs /\ keys_of cs = Some ck /\ waiting S k /\ half Qs P scfg spsks se k shs before hello shm eem fl sfin pre es dh /\ p_usingEarlyData (sk_params k) = false /\
    same_keys ck k shs /\
    (forall flight, Forall2 same_message (eem :: fl ++ [sfin]) flight ->
       transcript (digest P (s_hash (ck_suite ck))) (cevs0 ++ map Received flight) = pre ++ encoding ([Received hello; Sent shm] ++ map Sent (eem :: fl ++ [sfin]))) /\
    ce = cevs0 ++ map Received seen /\ Forall2 same_message got seen /\ eem :: fl = got ++ rest /\
    (if is_ee cs then got = [] else p_usingEarlyData (ck_params ck) = false) /\
    pipe (c_ctx S) up (c_ctx C) [] /\ pipe (c_ctx C) down (c_ctx S) ts /\ talk ce se [] /\ talk se ce ts /\ quiet C /\ quiet S.

Lemma waiting_with S s k : c_hState S = Some s -> waiting S k <-> waits_with s k.
Proof. intros H. unfold waiting. split; [intros (s' & H' & W); rewrite H in H'; injection H' as <-; exact W|]. intros W. exists s. auto. Qed.

Lemma pipe_empty_ahead xr tr x : pipe xr tr x [] -> exists r', ahead xr (tr ++ concat (l_out (outl x))) [] r' [] /\ rcore_ok r' /\ sync (l_core (outl x)) r'.
Proof. intros (_ & H). exact H. Qed.

Lemma flight_server_turn ce se C S up down fuel o s S' r : phase_flight ce se C S up down -> c_hState S = Some s -> handshake_turn E fuel o S s = (S', r) -> returned r ->
  phase_flight ce (se ++ turn_events E fuel o S s) C S' up down.
Proof.
  intros (ws & k & shs & before & hello & shm & eem & fl & sfin & pre & es & dh & H) Hs T R. cbv zeta in H. destruct H as (Hc & Wt & Hf & Ue & (Tx & r' & Ah & Rr & Cr) & Pd & Tu & Td & Q1 & Q2).
  apply (waiting_with _ _ _ Hs) in Wt.
  destruct (waiting_turn S k fuel o s S' r _ _ _ _ Wt Hs Ah (or_intror (conj eq_refl eq_refl)) T R) as [(x1 & s' & -> & Ws & Hr & A1 & ->)|(_ & m & ts' & x1 & w & acts & s' & retry & c1 & Em & _)]; [|discriminate].
  rewrite app_nil_r. exists ws, k, shs, before, hello, shm, eem, fl, sfin, pre, es, dh. cbv zeta.
  split; [exact Hc|]. split; [exists s'; split; [reflexivity|exact Ws]|]. split; [exact Hf|]. split; [exact Ue|]. split; [split; [exact Tx|]; exists r'; auto|].
  split; [exact (pipe_has_read _ _ _ _ _ Pd Hr)|]. auto 6.
Qed.
Lemma keys_server_turn ce se C S up down fuel o s S' r : phase_keys ce se C S up down -> c_hState S = Some s -> handshake_turn E fuel o S s = (S', r) -> returned r ->
  phase_keys ce (se ++ turn_events E fuel o S s) C S' up down.
Proof.
  intros (cs & ck & k & shs & before & hello & shm & eem & fl & sfin & pre & es & dh & cevs0 & got & seen & rest & H) Hs T R. cbv zeta in H.
  destruct H as (Hc & Kc & Wt & Hf & Ue & Sk & Tr & Ec & Fs & El & Ie & (Tx & r' & Ah & Rr & Cr) & Pd & Tu & Td & Q1 & Q2).
  apply (waiting_with _ _ _ Hs) in Wt.
  destruct (waiting_turn S k fuel o s S' r _ _ _ _ Wt Hs Ah (or_intror (conj eq_refl eq_refl)) T R) as [(x1 & s' & -> & Ws & Hr & A1 & ->)|(_ & m & ts' & x1 & w & acts & s' & retry & c1 & Em & _)]; [|discriminate].
  rewrite app_nil_r. exists cs, ck, k, shs, before, hello, shm, eem, fl, sfin, pre, es, dh, cevs0, got, seen, rest. cbv zeta.
  split; [exact Hc|]. split; [exact Kc|]. split; [exists s'; split; [reflexivity|exact Ws]|]. do 8 (split; [assumption|]). split; [split; [exact Tx|]; exists r'; auto|].
  split; [exact (pipe_has_read _ _ _ _ _ Pd Hr)|]. auto 6.
Qed.

(** ** Keys in *)

Lemma take_in now c e k c' l : takeActions E now c (RekeyIn e k :: l) = (c', Ok tt) ->
  exists c1, x_in (c_ctx c1) = set_rcore (c_ctx c) (rekey (l_core (c_in c)) e (v_gcm E (k_key k)) (k_iv k)) /\ x_out (c_ctx c1) = x_out (c_ctx c) /\ x_sent (c_ctx c1) = x_sent (c_ctx c) /\
    takeActions E now c1 l = (c', Ok tt).
Proof.
  cbn [takeActions takeAction]. destruct (f_rem _); [|discriminate]. destruct (layer_rekey E (c_in c) e k) as [l' r] eqn:Lr. destruct r as [[]|er| |]; cbn [or_alert sbind]; try discriminate.
  apply rekeyed in Lr; [|reflexivity]. subst l'. intros T. eexists. split; [|split; [|split; [|exact T]]]; reflexivity.
Qed.
Lemma take_out now c e k c' l : takeActions E now c (RekeyOut e k :: l) = (c', Ok tt) ->
  exists c1, x_out (c_ctx c1) = set_conn (x_out (c_ctx c)) (upd_core (c_out c) (rekey (l_core (c_out c)) e (v_gcm E (k_key k)) (k_iv k))) /\ x_in (c_ctx c1) = x_in (c_ctx c) /\ x_sent (c_ctx c1) = x_sent (c_ctx c) /\
    takeActions E now c1 l = (c', Ok tt).
Proof.
  cbn [takeActions takeAction]. destruct (layer_rekey E (c_out c) e k) as [l' r] eqn:Lr. destruct r as [[]|er| |]; cbn [or_alert sbind]; try discriminate.
  apply rekeyed in Lr; [|reflexivity]. subst l'. intros T. eexists. split; [|split; [|split; [|exact T]]]; reflexivity.
Qed.
Lemma app_tail {A} (a b s t : list A) : List.length s = List.length t -> a ++ s = b ++ t -> a = b /\ s = t.
Proof.
  intros L H. assert (List.length a = List.length b) as K by (apply (f_equal (@List.length A)) in H; rewrite !app_length in H; lia).
  revert b K H. induction a as [|x a IH]; intros [|y b] K H; try discriminate; [auto|]. injection H as -> H. destruct (IH b ltac:(injection K; auto) H) as [-> ->]. auto.
Qed.
Lemma pipe_at xr tr x ts r' : tx_ok x -> ahead xr (tr ++ concat (l_out (outl x))) ts r' [] -> rcore_ok r' -> sync (l_core (outl x)) r' -> pipe xr tr x ts.
Proof. intros A B C D. split; [exact A|]. exists r'. auto. Qed.
Lemma flight_msgs k l : msgs (flight_toks k l) = map pair_of l.
Proof. unfold flight_toks. rewrite msgs_app, msgs_M. cbn. apply app_nil_r. Qed.

Lemma flight_client_turn ce se C S up down fuel o s C' r : csound ce C -> phase_flight ce se C S up down -> c_hState C = Some s -> handshake_turn E fuel o C s = (C', r) -> returned r ->
  csound (ce ++ turn_events E fuel o C s) C' ->
  phase_flight (ce ++ turn_events E fuel o C s) se C' S up down \/ phase_keys (ce ++ turn_events E fuel o C s) se C' S up down.
Proof.
  intros Sd (ws & k & shs & before & hello & shm & eem & fl & sfin & pre & es & dh & H) Hs T R Sd'. cbv zeta in H. destruct H as (Hc & Wt & Hf & Ue & Ho & Pd & Tu & Td & Q1 & Q2).
  rewrite Hc in Hs. injection Hs as <-.
  destruct (pipe_tls _ _ _ _ Pd) as [Di _]. assert (hl_datagram (x_out (c_ctx C)) = false) as Do by apply Ho.
  pose proof Pd as (Tx & r' & Ah & Rr & Sy).
  destruct (turn_reads E fuel o C (CWaitSH ws) C' r _ _ _ _ I Ah ltac:(left; eauto) T R) as [(e & x1 & -> & -> & Hr & A1 & Ev)|(m & ts' & x1 & w & acts & s' & retry & c1 & Em & Hr & A1 & -> & H)].
  - left. rewrite Ev. rewrite app_nil_r. exists ws, k, shs, before, hello, shm, eem, fl, sfin, pre, es, dh. cbv zeta.
    split; [exact Hc|]. split; [exact Wt|]. split; [exact Hf|]. split; [exact Ue|]. split; [exact (hole_read _ _ _ _ _ _ _ Ho Hr)|]. split; [exact (pipe_at _ _ _ _ _ Tx A1 Rr Sy)|]. auto.
  - right. cbv zeta in H. destruct H as (Hst & Hn & Ta & Td' & Ev). injection Em as <- <-. pose proof (step_still _ _ _ _ _ _ _ Hr Di Do Hst) as St. cbn [step_of] in Hst.
    assert (w_early w = w_early (c_world C)) as We by (refine (next_early P X o fuel (c_world C) (CWaitSH ws) w _ _ Hn); discriminate).
    pose proof (acts_quiet E (o_ms o) C w _ c1 _ Q1 (eq_trans We (proj1 (proj2 Q1))) Ta) as Q3.
    pose proof (inv_handler _ _ _ (proj1 Sd) (jo_chandler _ _ _ _ _ _ _ ok)) as Nh.
    apply client_wait_sh_ok in Hst. destruct Hst as (sh & n & vs & Ht & Us & _ & _ & _ & [[_ Hst]|[_ Hst]]).
    { exfalso. apply client_hrr_ok in Hst. destruct Hst as (cookie & ps & exts & _ & _ & _ & _ & Rv & Fi & _). unfold ext_recv in Rv.
      change (cf_extensionHandler (set_suites (w_cfg (set_ctx (c_world C) x1)) [sh_suite sh])) with (cf_extensionHandler (c_cfg C)) in Rv. rewrite Nh in Rv. apply Ok_inj in Rv. subst exts.
      apply value_found in Fi. pose proof (hf_plain _ _ _ _ _ _ _ _ _ _ _ _ _ _ _ _ Hf (jo_shandler _ _ _ _ _ _ _ ok) _ _ Us) as K. unfold etCookie in Fi. congruence. }
    pose proof (sound_client _ _ _ _ _ _ _ (jo_sized _ _ _ _ _ _ _ ok) Sd Hc I) as At. cbn [client_at] in At.
    destruct (wait_sh_quiet Qc E ccfg cpsks (jo_early _ _ _ _ _ _ _ ok) (jo_chandler _ _ _ _ _ _ _ ok) _ _ _ At) as (Ns & _ & _).
    apply client_server_hello_ok in Hst. destruct Hst as (exts & found & selected & share & ps & dhx & _ & _ & Cs & Hst). cbv zeta in Hst. destruct Hst as (_ & _ & Hst).
    destruct (handshake_secrets _ _ _ _ _) as [[chs shs'] ms]. destruct Hst as (-> & -> & Ea). cbn [set_sh_params p_clientSendingEarlyData] in Ea. rewrite Ns in Ea.
    match type of Td' with turned _ _ _ (CWaitEE ?q) _ => set (ck := q) in * end.
    destruct Td' as [[_ ->]|(k' & Ek & _)]; [|discriminate]. rewrite Ev in *.
    assert (sent_of acts = []) as Sa by (rewrite Ea; reflexivity). rewrite Sa in *. cbn [map] in *. fold (heard (pair_of shm)) in *.
    pose proof (sound_client _ _ _ _ _ _ _ (jo_sized _ _ _ _ _ _ _ ok) Sd' (eq_refl : c_hState (set_hState c1 (CWaitEE ck)) = Some (CWaitEE ck)) I) as Ac. cbn [client_at] in Ac.
    apply ee_accepted in Ac; [|exact (jo_sized _ _ _ _ _ _ _ ok)]. destruct Ac as (Ac & _).
    pose proof (talk_reads _ _ _ _ [Received (heard (pair_of shm))] Td eq_refl) as Td1.
    pose proof (talk_silent _ _ _ [Received (heard (pair_of shm))] Tu eq_refl) as Tu1.
    destruct (talk_parts _ _ _ Td1) as (a & b & Ess & Fa & Eb). change (msgs _) with (msgs (flight_toks k (eem :: fl ++ [sfin]))) in Eb. rewrite flight_msgs in Eb.
    assert (b = eem :: fl ++ [sfin]) as ->.
    { pose proof (hf_evs _ _ _ _ _ _ _ _ _ _ _ _ _ _ _ _ Hf) as He. rewrite He, app_assoc, sends_app, sent_acts in Ess. apply app_tail in Ess; [symmetry; apply Ess|].
      apply (f_equal (@List.length _)) in Eb. rewrite !map_length in Eb. now symmetry. }
    destruct (handshake_keys Qc Qs E ccfg scfg cpsks spsks (jo_chandler _ _ _ _ _ _ _ ok) (jo_shandler _ _ _ _ _ _ _ ok) (eq_trans (jo_ctls _ _ _ _ _ _ _ ok) (eq_sym (jo_stls _ _ _ _ _ _ _ ok)))
      (jo_groups _ _ _ _ _ _ _ ok) (jo_curves _ _ _ _ _ _ _ ok) (jo_psk _ _ _ _ _ _ _ ok) (jo_inverts _ _ _ _ _ _ _ ok) (fun _ => jo_stls _ _ _ _ _ _ _ ok)
      _ _ _ _ _ _ _ _ _ _ _ _ _ ck _ Hf Ac (talk_all _ _ Tu1) Ess Fa) as (K1 & K2 & K3 & K4 & K5).
    rewrite Ea in Ta. apply take_in in Ta. destruct Ta as (c2 & X1 & X2 & X3 & Ta). apply take_out in Ta. destruct Ta as (c3 & Y1 & Y2 & Y3 & Ta). cbn [takeActions] in Ta. injection Ta as <-.
    pose proof (pipe_reader _ _ _ _ _ (pipe_at _ _ _ _ _ Tx A1 Rr Sy) St) as (_ & r2 & Ah2 & Rr2 & Sy2).
    cbn [ck ck_suite ck_chs ck_shs ck_master] in K1, K2, K3, K4. subst ps chs shs' ms.
    pose proof (ahead_rekey _ _ _ _ _ _ _ _ (c_ctx c2) Ah2 X1) as Ah3.
    pose proof (hole_filled E _ _ _ _ _ _ (jo_gcm _ _ _ _ _ _ _ ok) (long_iv _ _ _ Cs) (hole_writer _ _ _ _ _ _ _ (hole_read _ _ _ _ _ _ _ Ho Hr) St)) as Pu3.
    exists (CWaitEE ck), ck, k, shs, before, hello, shm, eem, fl, sfin, pre, es, dh, (ce ++ [Received (heard (pair_of shm))]), [], [], (eem :: fl). cbv zeta. rewrite ctx_hstate.
    split; [reflexivity|]. split; [reflexivity|]. split; [exact Wt|]. split; [exact Hf|]. split; [exact Ue|]. split; [repeat split; exact Ns|]. split; [exact K5|].
    split; [now rewrite app_nil_r|]. split; [constructor|]. split; [reflexivity|]. split; [reflexivity|].
    split; [refine (pipe_tx _ _ _ _ _ Pu3 _ _)|split; [exact (pipe_at _ _ _ _ _ Tx (ahead_same _ _ _ _ _ _ Ah3 Y2) Rr2 Sy2)|]].
    + rewrite Y1. unfold c_out. rewrite X2. reflexivity.
    + rewrite Y3, X3. reflexivity.
    + split; [exact Tu1|]. split; [exact Td1|]. split; [exact Q3|exact Q2].
Qed.

(** ** The rest of the server's flight *)

Definition finishing (s : hstate) : bool := match s with CWaitFinished _ _ _ _ _ => true | _ => false end.
Lemma mid_step o w s ck hm w' s' acts retry : keys_of s = Some ck -> finishing s = false -> cf_extensionHandler (w_cfg w) = None -> p_clientSendingEarlyData (ck_params ck) = false ->
  (is_ee s = true -> exists eexts proto, ee_marshal eexts = Ok (hm_body hm) /\ accepts eexts false proto) -> (is_ee s = false -> p_usingEarlyData (ck_params ck) = false) ->
  step_of P X o w s hm = (w', Ok (s', acts, retry)) ->
  hm_type hm <> x14 /\ acts = [] /\ exists ck', keys_of s' = Some ck' /\ is_ee s' = false /\ p_usingEarlyData (ck_params ck') = false /\
    forall k shs, same_keys ck k shs -> same_keys ck' k shs.
Proof.
  intros Ks Fi Nh Ns Ee Ne H. destruct s; cbn [keys_of finishing is_ee] in *; try discriminate; injection Ks as ->; cbn [step_of] in H.
  - apply client_wait_ee_ok in H. destruct H as (exts & exts' & found & protos & Ht & U & Rv & Pa & _ & _ & H). cbv zeta in H. rewrite Ns in H. destruct H as (-> & ->).
    destruct (Ee eq_refl) as (eexts & proto & Me & Ac). apply ee_back, safe_ok in Me. rewrite Me in U. apply Ok_inj in U. subst exts.
    unfold ext_recv in Rv. rewrite Nh in Rv. apply Ok_inj in Rv. subst exts'. apply ee_parse in Pa. destruct Pa as [Pa _]. destruct Ac as [Ac _]. rewrite <- Ac in Pa. rewrite Pa.
    split; [rewrite Ht; discriminate|]. split; [reflexivity|]. eexists. destruct (p_usingPSK (ck_params ck)); (split; [reflexivity|]; split; [reflexivity|]; split; [reflexivity|]; auto).
  - apply client_wait_cert_cr_ok in H. destruct H as (_ & _ & -> & [(cert & Ht & _ & ->)|(cr & Ht & _ & _ & ->)]); (split; [rewrite Ht; discriminate|]; split; [reflexivity|]; eexists; split; [reflexivity|]; split; [reflexivity|]; split; [exact (Ne eq_refl)|auto]).
  - apply client_wait_cert_ok in H. destruct H as (_ & _ & -> & cert & Ht & _ & ->). split; [rewrite Ht; discriminate|]. split; [reflexivity|]. eexists. split; [reflexivity|]. split; [reflexivity|]. split; [exact (Ne eq_refl)|auto].
  - apply client_wait_cv_ok in H. destruct H as (_ & _ & -> & cv & leaf & rest & chains & Ht & _ & _ & _ & _ & _ & ->). split; [rewrite Ht; discriminate|]. split; [reflexivity|]. eexists. split; [reflexivity|]. split; [reflexivity|]. split; [exact (Ne eq_refl)|auto].
Qed.
Lemma flight_cons k m l : flight_toks k (m :: l) = M (pair_of m) :: flight_toks k l.
Proof. reflexivity. Qed.
Lemma flight_waits k l m : waits (flight_toks k (l ++ [m])) [].
Proof. left. destruct l; cbn [List.app]; rewrite flight_cons; eauto. Qed.
Lemma keys_reads s ck : keys_of s = Some ck -> reads s.
Proof. destruct s; try discriminate; intros _; exact I. Qed.

Lemma keys_client_turn ce se C S up down fuel o s C' r : csound ce C -> phase_keys ce se C S up down -> c_hState C = Some s -> finishing s = false -> handshake_turn E fuel o C s = (C', r) -> returned r ->
  phase_keys (ce ++ turn_events E fuel o C s) se C' S up down.
Proof.
  intros Sd (cs & ck & k & shs & before & hello & shm & eem & fl & sfin & pre & es & dh & cevs0 & got & seen & rest & H) Hs Fi T R. cbv zeta in H.
  destruct H as (Hc & Kc & Wt & Hf & Ue & Sk & Tr & Ec & Fs & El & Ie & Pu & Pd & Tu & Td & Q1 & Q2). rewrite Hc in Hs. injection Hs as <-.
  destruct (pipe_tls _ _ _ _ Pd) as [Di _]. destruct (pipe_tls _ _ _ _ Pu) as [_ Do]. pose proof Pd as (Tx & r' & Ah & Rr & Sy).
  destruct (turn_reads E fuel o C cs C' r _ _ _ _ (keys_reads _ _ Kc) Ah (flight_waits _ _ _) T R) as [(e & x1 & -> & -> & Hr & A1 & Ev)|(m & ts' & x1 & w & acts & s' & retry & c1 & Em & Hr & A1 & -> & H)].
  - rewrite Ev, app_nil_r. exists cs, ck, k, shs, before, hello, shm, eem, fl, sfin, pre, es, dh, cevs0, got, seen, rest. cbv zeta.
    do 11 (split; [assumption|]). split; [exact (pipe_has_read _ _ _ _ _ Pu Hr)|]. split; [exact (pipe_at _ _ _ _ _ Tx A1 Rr Sy)|]. auto.
  - cbv zeta in H. destruct H as (Hst & Hn & Ta & Td' & Ev). pose proof (step_still _ _ _ _ _ _ _ Hr Di Do Hst) as St.
    pose proof (hf_types _ _ _ _ _ _ _ _ _ _ _ _ _ _ _ _ Hf) as (_ & _ & Te & Tf & T20).
    pose proof (inv_handler _ _ _ (proj1 Sd) (jo_chandler _ _ _ _ _ _ _ ok)) as Nh.
    destruct (hf_ee _ _ _ _ _ _ _ _ _ _ _ _ _ _ _ _ Hf) as (eexts & proto & Me & Ma). specialize (Ma (jo_shandler _ _ _ _ _ _ _ ok)). rewrite Ue in Ma.
    assert (is_ee cs = true -> exists eexts proto, ee_marshal eexts = Ok (snd m) /\ accepts eexts false proto) as He.
    { intros Ice. rewrite Ice in Ie. subst got. cbn [List.app] in El. subst rest. cbn [List.app] in Em. rewrite flight_cons in Em. injection Em as <- <-. exists eexts, proto. auto. }
    assert (is_ee cs = false -> p_usingEarlyData (ck_params ck) = false) as Hne by (intros K; rewrite K in Ie; exact Ie).
    destruct (mid_step o _ cs ck (heard m) w s' acts retry Kc Fi (Nh : cf_extensionHandler (w_cfg (set_ctx (c_world C) x1)) = None) (proj2 (proj2 (proj2 (proj2 Sk)))) He Hne Hst) as (Nt & -> & ck' & Kc' & Ie' & Ne' & Sk').
    cbn [takeActions] in Ta. injection Ta as <-.
    destruct Td' as [[_ ->]|(k' & -> & _)]; [|discriminate].
    assert (w_early w = w_early (c_world C)) as We by (refine (next_early P X o fuel (c_world C) cs w _ _ Hn); intros k0 ->; discriminate).
    destruct rest as [|m' rest]; cbn [List.app] in *; rewrite flight_cons in Em; injection Em as <- <-; [contradiction Nt|].
    rewrite Ev. cbn [sent_of map]. fold (heard (pair_of m')).
    exists s', ck', k, shs, before, hello, shm, eem, fl, sfin, pre, es, dh, cevs0, (got ++ [m']), (seen ++ [heard (pair_of m')]), rest. cbv zeta. rewrite ctx_hstate, ctx_set.
    split; [reflexivity|]. split; [exact Kc'|]. split; [exact Wt|]. split; [exact Hf|]. split; [exact Ue|]. split; [exact (Sk' _ _ Sk)|].
    split; [rewrite (proj1 (Sk' _ _ Sk)), <- (proj1 Sk); exact Tr|]. split; [now rewrite Ec, map_app, app_assoc|]. split.
    { apply Forall2_app; [exact Fs|]. constructor; [|constructor]. apply pair_same; [|reflexivity|reflexivity].
      assert (In m' (sent se)) as Im by (rewrite (hf_evs _ _ _ _ _ _ _ _ _ _ _ _ _ _ _ _ Hf), !sends_app, sent_acts; apply in_or_app; right; apply in_or_app; right; rewrite app_comm_cons, El; apply in_or_app; left; apply in_or_app; right; now left).
      destruct Td as (_ & Td & _). rewrite Forall_forall in Td. exact (Td _ Im). }
    split; [now rewrite <- app_assoc|]. split; [rewrite Ie'; exact Ne'|].
    split; [exact (pipe_writer _ _ _ _ _ (pipe_has_read _ _ _ _ _ Pu Hr) St)|]. split; [exact (pipe_reader _ _ _ _ _ (pipe_at _ _ _ _ _ Tx A1 Rr Sy) St)|].
    split; [now apply talk_silent|]. split; [apply (talk_reads _ _ _ _ _ Td); reflexivity|]. split; [|exact Q2].
    destruct Q1 as (Qa & Qb & Qd). split; [exact Qa|]. split; [|exact Qd]. change (w_early w = []). congruence.
Qed.

(** ** The client is connected *)

(** The server as it will be once it has read the client's answer. *)
Definition ghost (S : conn) (k : skeys) (r1 : rcore) : conn :=
  set_state (upd_in S (mkRl r1 (newFrameReader (recordFraming false)) None [] [])) (set_sts (set_cts (c_state S) (sk_cts k)) (sk_sts k)).
Definition answer_toks (k : skeys) (l : list hmsg) : list tok := map M (map pair_of l) ++ [ktok EpochApplicationData (sk_suite k) (sk_cts k)].
Definition phase_done (ce se : list event) (t : traffic) (C S : conn) (up down : bytes) : Prop :=
  exists k l cfin r1 d items, let s := sk_suite k in let ts := answer_toks k (l ++ [cfin]) in
    cipherSuiteMap (s_id s) = Some s /\ end_ok s true C /\ c_readBuffer C = [] /\ waiting S k /\ quiet S /\
    Forall (fun m => is_type m 11 \/ is_type m 15) l /\ is_type cfin 20 /\
    ahead (c_ctx S) (up ++ concat (l_out (c_out C))) ts r1 d /\ rcore_ok r1 /\
    writer_ok (c_out C) /\ flow E s true r1 (sk_cts k) d items (l_core (c_out C)) (sc_cts (c_state C)) /\
    tx_ok (c_ctx S) /\ direction_ok E s false (ghost S k r1) C down [] /\
    talk ce se ts /\ talk se ce [] /\ t = mkTr (app_data items) [] [] [].

Lemma pending_rem f : pending f = [] -> f_rem f = [].
Proof. unfold pending. destruct (f_state f); [auto|]. intros H. now apply app_eq_nil in H. Qed.
Lemma sync_in_step w r k : sync w r -> c_aead (cur r) = Some k -> in_step (cur w) (cur r).
Proof. intros [A B] K. rewrite A, K in B. destruct (B ltac:(discriminate)) as [B1 B2]. unfold in_step. auto. Qed.
Lemma wr_writer l k : wr_ok (l_core l) -> c_aead (cur (l_core l)) = Some k -> writer_ok l.
Proof. intros (A & B & C & D) H. rewrite H in D. split; [exact A|]. auto. Qed.
Lemma talk_msgs a b ts ts' : talk a b ts -> msgs ts' = msgs ts -> talk a b ts'.
Proof. intros (A & B & D) Eq. unfold talk. rewrite Eq. auto. Qed.
Lemma answer_msgs k l : msgs (answer_toks k l) = map pair_of l.
Proof. unfold answer_toks. rewrite msgs_app, msgs_M. cbn. apply app_nil_r. Qed.
Lemma inv_psks cfg client c : inv cfg client c -> started c = true -> cf_psks (c_cfg c) <> None.
Proof.
  intros I St. pose proof (inv_cfg _ _ _ I) as K. unfold cfg_now in K. rewrite St in K. assert (cf_psks (cfg_init cfg) <> None) as N by (unfold cfg_init; cbn; destruct (cf_psks cfg); discriminate).
  destruct K as [->|[(_ & s & ->)|(_ & _ & _ & _ & p & ->)]]; exact N.
Qed.
Lemma last_rekey now c l e k c' : takeActions E now c (l ++ [RekeyOut e k]) = (c', Ok tt) -> cur (l_core (c_out c')) = mkCs e 0 (k_iv k) (Some (v_gcm E (k_key k))).
Proof.
  intros H. apply KeyProofs.actions_app in H. destruct H as (c1 & _ & H). apply take_out in H. destruct H as (c2 & X1 & _ & _ & H). cbn [takeActions] in H. injection H as <-.
  unfold c_out. rewrite X1. cbn [set_conn hl_conn upd_core l_core]. apply rekey_cur.
Qed.
Lemma auth_types o w k certs cr w' acts : client_auth P X o w k certs cr = (w', Ok acts) -> acts = map QueueHandshakeMessage (sent_of acts) /\ Forall (fun m => is_type m 11 \/ is_type m 15) (sent_of acts).
Proof.
  intros H. apply client_auth_ok in H. destruct H as (_ & Om & H). split; [now apply only_queued|]. destruct (p_usingClientAuth _); [|subst acts; constructor].
  destruct H as (c & _ & schemes & _ & [(certm & -> & T & _)|(certm & cvm & cert & scheme & cv & -> & _ & T & _ & _ & T' & _)]); cbn [sent_of flat_map List.app].
  - constructor; [now left|constructor].
  - constructor; [now left|]. constructor; [now right|constructor].
Qed.

Lemma keys_client_finished ce se C S up down fuel o ck certs cr peer chains C' r : csound ce C -> phase_keys ce se C S up down -> c_hState C = Some (CWaitFinished ck certs cr peer chains) ->
  handshake_turn E fuel o C (CWaitFinished ck certs cr peer chains) = (C', r) -> returned r -> small (turn_events E fuel o C (CWaitFinished ck certs cr peer chains)) ->
  csound (ce ++ turn_events E fuel o C (CWaitFinished ck certs cr peer chains)) C' ->
  phase_keys (ce ++ turn_events E fuel o C (CWaitFinished ck certs cr peer chains)) se C' S up down \/
  phase_done (ce ++ turn_events E fuel o C (CWaitFinished ck certs cr peer chains)) se (mkTr [] [] [] []) C' S up down.
Proof.
  intros Sd (cs & ck0 & k & shs & before & hello & shm & eem & fl & sfin & pre & es & dh & cevs0 & got & seen & rest & H) Hs T R Sm Sd'. cbv zeta in H.
  destruct H as (Hc & Kc & Wt & Hf & Ue & Sk & Tr & Ec & Fs & El & Ie & Pu & Pd & Tu & Td & Q1 & Q2). rewrite Hc in Hs. injection Hs as ->. injection Kc as <-. cbn [is_ee] in Ie.
  destruct (pipe_tls _ _ _ _ Pd) as [Di _]. destruct (pipe_tls _ _ _ _ Pu) as [_ Do]. pose proof Pd as (Tx & r' & Ah & Rr & Sy).
  destruct (turn_reads E fuel o C (CWaitFinished ck certs cr peer chains) C' r _ _ _ _ I Ah (flight_waits _ _ _) T R) as [(e & x1 & -> & -> & Hr & A1 & Ev)|(m & ts' & x1 & w & acts & s' & retry & c1 & Em & Hr & A1 & -> & H)].
  - left. rewrite Ev, app_nil_r. exists (CWaitFinished ck certs cr peer chains), ck, k, shs, before, hello, shm, eem, fl, sfin, pre, es, dh, cevs0, got, seen, rest. cbv zeta.
    split; [exact Hc|]. split; [reflexivity|]. do 9 (split; [assumption|]). split; [exact (pipe_has_read _ _ _ _ _ Pu Hr)|]. split; [exact (pipe_at _ _ _ _ _ Tx A1 Rr Sy)|]. auto.
  - right. cbv zeta in H. destruct H as (Hst & Hn & Ta & Td' & Ev). pose proof (step_still _ _ _ _ _ _ _ Hr Di Do Hst) as St. cbn [step_of] in Hst.
    fold (heard m) in *. pose proof (hf_types _ _ _ _ _ _ _ _ _ _ _ _ _ _ _ _ Hf) as (_ & _ & Te & Tf & T20).
    assert (plain (set_ctx (c_world C) x1)) as Pl by (unfold plain; cbn [w_ctx set_ctx]; rewrite (proj2 (read_tls _ _ Hr)); exact Do).
    pose proof (client_finished_framed _ _ _ _ _ _ _ _ _ _ _ _ _ _ Pl Hst) as Fm.
    apply client_wait_finished_ok in Hst. destruct Hst as (w1 & w2 & eoed & auth & finm & Ht & Hst). cbv zeta in Hst.
    destruct Hst as (_ & Heo & Hau & Tfin & _ & _ & -> & Es & Ea & _).
    apply client_eoed_ok in Heo. destruct Heo as [_ Heo]. rewrite Ie in Heo. subst eoed. cbn [List.app] in Ea. apply auth_types in Hau. destruct Hau as [Hau Ty].
    assert (rest = [] /\ m = pair_of sfin /\ ts' = [ktok EpochApplicationData (sk_suite k) (sk_sts k)]) as (-> & -> & ->).
    { destruct rest as [|m' rest]; cbn [List.app] in Em; rewrite flight_cons in Em; injection Em as <- <-; [auto|]. exfalso.
      assert (flight_types m') as Tm by (rewrite El in Tf; apply Forall_app in Tf; destruct Tf as [_ Tf]; now inversion Tf).
      cbn in Ht. destruct Tm as [Tm|[Tm|[Tm|Tm]]]; rewrite Tm in Ht; discriminate. }
    rewrite app_nil_r in El. clear Em.
    destruct (pipe_tls _ _ _ _ (pipe_at _ _ _ _ _ Tx A1 Rr Sy)) as [Di1 _].
    assert (w_early w = w_early (c_world C)) as We by (refine (next_early P X o fuel (c_world C) _ w _ _ Hn); discriminate).
    pose proof (acts_quiet E (o_ms o) C w _ c1 _ Q1 (eq_trans We (proj1 (proj2 Q1))) Ta) as Q3.
    pose proof (inv_tls _ _ _ (proj1 Sd) (jo_ctls _ _ _ _ _ _ _ ok)) as Dt.
    pose proof (frame_next P X o fuel (c_world C) (CWaitFinished ck certs cr peer chains)) as Fr. rewrite Hn in Fr. destruct Fr as (Fc & _ & _). cbn [fst] in Fc.
    (* secrets *)
    pose proof (sound_client _ _ _ _ _ _ _ (jo_sized _ _ _ _ _ _ _ ok) Sd Hc I) as At. cbn [client_at] in At.
    apply since_finished in At; [|exact (jo_sized _ _ _ _ _ _ _ ok)]. destruct At as (ev0 & em & flight & _ & _ & (ev1 & _ & _ & Hh & _) & _). unfold hashed in Hh.
    assert (is_retry (heard (pair_of sfin)) = false) as Nr by (eapply not_retry; [exact Ht|reflexivity]).
    assert (Forall2 same_message (eem :: fl ++ [sfin]) (seen ++ [heard (pair_of sfin)])) as Fs'.
    { rewrite app_comm_cons, El. apply Forall2_app; [exact Fs|]. constructor; [|constructor]. apply pair_same; [|reflexivity|reflexivity].
      assert (In sfin (sent se)) as Im by (rewrite (hf_evs _ _ _ _ _ _ _ _ _ _ _ _ _ _ _ _ Hf), !sends_app, sent_acts; apply in_or_app; right; apply in_or_app; right; right; apply in_or_app; right; now left).
      destruct Td as (_ & Td & _). rewrite Forall_forall in Td. exact (Td _ Im). }
    pose proof (Tr _ Fs') as Tr1. rewrite map_app, app_assoc, <- Ec in Tr1. change (map Received [heard (pair_of sfin)]) with [Received (heard (pair_of sfin))] in Tr1. rewrite transcript_received in Tr1 by exact Nr. rewrite <- Hh in Tr1.
    change (w_hash (set_ctx (c_world C) x1)) with (w_hash (c_world C)) in Es. change (w_hash (set_ctx (c_world C) x1)) with (w_hash (c_world C)) in Ea.
    rewrite Tr1 in Es, Ea. unfold labelClientApplicationTrafficSecret, labelServerApplicationTrafficSecret in Es, Ea. rewrite !derive_rfc in Es, Ea by exact (jo_sized _ _ _ _ _ _ _ ok).
    destruct Sk as (K1 & K2 & K3 & K4 & _). rewrite K1, K4 in Es, Ea.
    rewrite <- (hf_cts _ _ _ _ _ _ _ _ _ _ _ _ _ _ _ _ Hf), <- (hf_sts _ _ _ _ _ _ _ _ _ _ _ _ _ _ _ _ Hf) in Es, Ea.
    pose proof (hf_suite _ _ _ _ _ _ _ _ _ _ _ _ _ _ _ _ Hf) as Cs.
    set (l := sent_of auth) in *.
    assert (acts = map QueueHandshakeMessage (l ++ [finm]) ++ [SendQueuedHandshake; RekeyIn EpochApplicationData (makeTrafficKeys P (sk_suite k) (sk_sts k)); RekeyOut EpochApplicationData (makeTrafficKeys P (sk_suite k) (sk_cts k))]) as Ea1.
    { rewrite Ea, Hau, map_app, <- app_assoc. reflexivity. }
    assert (sent_of acts = l ++ [finm]) as Sa. { rewrite Ea1, sent_app, sent_queue. cbn [sent_of]. apply app_nil_r. }
    rewrite Sa in *. rewrite Ev in *.
    assert (Forall tls_msg (l ++ [finm])) as Tm.
    { eapply framed_small; [exact Fm| |exact Sm]. change (sent (map Sent (l ++ [finm])) = l ++ [finm]). apply sent_acts. }
    assert (Forall action_ok acts) as Ao.
    { rewrite Ea1. apply Forall_app. split; [apply Forall_map; eapply Forall_impl; [|exact Tm]; auto|]. constructor; [exact I|]. constructor; [exact I|]. constructor; [exact (long_iv _ _ _ Cs)|constructor]. }
    destruct (step_pipe (o_ms o) _ _ _ C w _ _ _ (pipe_has_read _ _ _ _ _ Pu Hr) St Ao (eq_trans (f_equal cf_useDTLS Fc) Dt) Ta) as ((Tc & r1 & Au & Ru & Su) & Xi).
    assert (toks E acts = answer_toks k (l ++ [finm])) as Et by (rewrite Ea1, toks_app, toks_queue; reflexivity). rewrite Et in Au. cbn [List.app] in Au.
    rewrite Ea1, in_after_app, in_after_queue in Xi. cbn [in_after fold_left in_step_of] in Xi.
    rewrite Ea1 in Ta.
    assert (takeActions E (o_ms o) (set_world C w) ((map QueueHandshakeMessage (l ++ [finm]) ++ [SendQueuedHandshake; RekeyIn EpochApplicationData (makeTrafficKeys P (sk_suite k) (sk_sts k))]) ++
      [RekeyOut EpochApplicationData (makeTrafficKeys P (sk_suite k) (sk_cts k))]) = (c1, Ok tt)) as Ta2 by (rewrite <- app_assoc; exact Ta).
    apply last_rekey in Ta2.
    destruct (pipe_reader _ _ _ _ _ (pipe_at _ _ _ _ _ Tx A1 Rr Sy) St) as (_ & r2 & Ah2 & Rr2 & Sy2).
    pose proof (ahead_rekey _ _ _ _ _ _ _ _ (c_ctx c1) Ah2 Xi) as Ah3. destruct (ahead_quiet _ _ _ Ah3) as (F1 & F2 & F3 & ->). apply app_eq_nil in F3. destruct F3 as [-> F3].
    destruct Td' as [[Nc _]|(k' & Ek & Oc)]; [subst s'; contradiction|]. rewrite Es in Ek. injection Ek as <-. rewrite Es in *.
    assert (c_isClient c1 = true) as Cc by (apply acts_shape in Ta; destruct Ta as (x & p & ->); exact (inv_role _ _ _ (proj1 Sd))).
    unfold on_connected in Oc. cbv zeta in Oc. change (c_isClient (set_complete (set_hState c1 (Connected _)) _)) with (c_isClient c1) in Oc. rewrite Cc in Oc.
    change (w_early (c_world (set_complete _ _))) with (w_early (c_world c1)) in Oc. rewrite (proj1 (proj2 Q3)) in Oc. injection Oc as <-.
    match goal with |- phase_done _ _ _ ?c _ _ _ => set (CC := c) in * end.
    assert (c_ctx CC = c_ctx c1) as Cx by reflexivity.
    assert (c_aead (cur (l_core (c_in CC))) = Some (v_gcm E (k_key (makeTrafficKeys P (sk_suite k) (sk_sts k))))) as Ki.
    { unfold c_in. rewrite Cx, Xi. unfold set_rcore. cbn [set_conn hl_conn upd_core l_core]. now rewrite rekey_cur. }
    destruct Ah3 as ((X1 & X2 & X3 & X4 & X5) & _). destruct Tc as (Y1 & Y2 & Y3 & Y4 & Y5). destruct Sy2 as [Sa2 Sb2].
    exists k, l, finm, r1, [], []. cbv zeta. split; [exact (known_suite _ _ Cs)|]. split; [|split; [apply Q3|]].
    { constructor; try reflexivity; try (rewrite ?Cx; assumption).
      - exact (inv_tls _ _ _ (proj1 Sd') (jo_ctls _ _ _ _ _ _ _ ok)).
      - exact (inv_psks _ _ _ (proj1 Sd') eq_refl).
      - rewrite Cx. exact (pending_rem _ F1). }
    split; [exact Wt|]. split; [exact Q2|]. split; [exact Ty|]. split; [exact Tfin|]. split; [exact Au|]. split; [exact Ru|].
    split; [exact (wr_writer (c_out CC) _ Y5 (f_equal c_aead Ta2))|]. split.
    { change (sc_cts (c_state CC)) with (sk_cts k). apply flow_nil. eapply sync_in_step; [exact Su|]. rewrite <- (proj1 Su). exact (f_equal c_aead Ta2). }
    split; [exact Tx|]. split.
    { split; [|split].
      - change (c_out (ghost S k r1)) with (c_out S). eapply wr_writer; [apply Tx|]. etransitivity; [exact Sa2|exact Ki].
      - split; [exact X3|]. exact X5.
      - change (c_out (ghost S k r1)) with (c_out S). change (c_in CC) with (inl (c_ctx c1)). unfold c_out. rewrite F2, F3. cbn [List.app]. apply flow_nil. eapply sync_in_step; [split; [exact Sa2|exact Sb2]|exact Ki]. }
    split; [apply (talk_sends _ _ _ _ _ Tu)|split; [|reflexivity]].
    + change (sent (Received (heard (pair_of sfin)) :: map Sent (l ++ [finm]))) with (sent (map Sent (l ++ [finm]))). now rewrite sent_acts.
    + change (sent (Received (heard (pair_of sfin)) :: map Sent (l ++ [finm]))) with (sent (map Sent (l ++ [finm]))). rewrite sent_acts, answer_msgs. reflexivity.
    + apply (talk_msgs _ _ [ktok EpochApplicationData (sk_suite k) (sk_sts k)]); [|reflexivity]. eapply talk_reads; [exact Td|].
      change (received (Received (heard (pair_of sfin)) :: map Sent (l ++ [finm]))) with (heard (pair_of sfin) :: received (map Sent (l ++ [finm]))). now rewrite received_sent.
Qed.

(** ** Both are connected *)

Definition phase_linked (ce se : list event) (t : traffic) (C S : conn) (up down : bytes) : Prop :=
  exists s iu id, cipherSuiteMap (s_id s) = Some s /\ linked E s (mkNet C S up down) iu id /\ talk ce se [] /\ talk se ce [] /\
    wrote_c t = got_s t ++ c_readBuffer S ++ app_data iu /\ wrote_s t = got_c t ++ c_readBuffer C ++ app_data id.

Lemma flow_version s fc r sec d items w ws v : flow E s fc r sec d items w ws -> flow E s fc (setVersion r v) sec d items w ws.
Proof.
  induction 1 as [r sec w H|r sec data hdr body rest core pt i items w sec' F Hh C _ IH]; [apply flow_nil; exact H|].
  eapply flow_cons; [exact F| |exact C|].
  - rewrite handle_version, Hh. reflexivity.
  - destruct i; exact IH.
Qed.
Lemma done_waits k l m d : waits (answer_toks k (l ++ [m])) d.
Proof. left. destruct l; cbn; eauto. Qed.
Lemma answer_cons k m l : answer_toks k (m :: l) = M (pair_of m) :: answer_toks k l.
Proof. reflexivity. Qed.
Lemma ghost_out S S' k r1 r2 s C down : direction_ok E s false (ghost S k r1) C down [] -> wr_ok (l_core (c_out S')) -> cur (l_core (c_out S')) = cur (l_core (c_out S)) -> l_out (c_out S') = l_out (c_out S) ->
  direction_ok E s false (ghost S' k r2) C down [].
Proof.
  intros (W & Rd & Fl) Wr Cu Lo. change (c_out (ghost S k r1)) with (c_out S) in *. destruct W as (_ & _ & _ & Ky).
  split; [|split; [exact Rd|]].
  - change (c_out (ghost S' k r2)) with (c_out S'). destruct Wr as (A & B & D & _). split; [exact A|]. split; [exact B|]. split; [exact D|]. now rewrite Cu.
  - change (c_out (ghost S' k r2)) with (c_out S'). rewrite Lo. inversion Fl; subst. unfold write_secret in *. cbn [ghost set_state c_state set_sts sc_sts] in *. 
    assert (read_secret (negb false) C = sk_sts k) as -> by (cbn [negb read_secret]; assumption). apply flow_nil. now rewrite Cu.
Qed.

Lemma done_server_turn ce se t C S up down fuel o s S' r : Qs o -> ssound se S -> phase_done ce se t C S up down -> c_hState S = Some s -> handshake_turn E fuel o S s = (S', r) -> returned r ->
  ssound (se ++ turn_events E fuel o S s) S' ->
  phase_done ce (se ++ turn_events E fuel o S s) t C S' up down \/ phase_linked ce (se ++ turn_events E fuel o S s) t C S' up down.
Proof.
  intros Qo Sd (k & l & cfin & r1 & d & items & H) Hs T R Sd'. cbv zeta in H.
  destruct H as (Ks & Eo & Rb & Wt & Q2 & Ty & T20 & Ah & Rr & Wc & Fl & Tx & Dr & Tu & Td & ->). apply (waiting_with _ _ _ Hs) in Wt.
  assert (hl_datagram (x_in (c_ctx S)) = false) as Di by apply Ah. assert (hl_datagram (x_out (c_ctx S)) = false) as Do by apply Tx.
  destruct (waiting_turn S k fuel o s S' r _ _ _ _ Wt Hs Ah (done_waits _ _ _ _) T R) as [(x1 & s' & -> & Ws & Hr & A1 & ->)|(Rs & m & ts' & x1 & w & acts & s' & retry & c1 & Em & Hr & A1 & -> & Hst & Hn & Ta & Td' & Ev)].
  - left. rewrite app_nil_r. exists k, l, cfin, r1, d, items. cbv zeta. split; [exact Ks|]. split; [exact Eo|]. split; [exact Rb|]. split; [exists s'; split; [reflexivity|exact Ws]|].
    split; [exact Q2|]. split; [exact Ty|]. split; [exact T20|]. split; [exact A1|]. split; [exact Rr|]. split; [exact Wc|]. split; [exact Fl|].
    pose proof (tx_read _ _ Tx Hr) as Tx1. split; [exact Tx1|]. split; [|auto].
    destruct Hr as (l0 & f0 & n0 & ->). exact Dr.
  - pose proof (step_still _ _ _ _ _ _ _ Hr Di Do Hst) as St.
    destruct (ahead_still _ _ _ _ _ _ A1 St) as (v & A2). pose proof (tx_still _ _ (tx_read _ _ Tx Hr) St) as Tx2.
    assert (w_early w = w_early (c_world S)) as We by (refine (next_early P X o fuel (c_world S) s w _ _ Hn); intros k0 ->; destruct Rs).
    rewrite Ev in *.
    assert (cur (l_core (outl (w_ctx w))) = cur (l_core (outl (c_ctx S))) /\ l_out (outl (w_ctx w)) = l_out (outl (c_ctx S))) as [Cu Lo].
    { destruct Hr as (l0 & f0 & n0 & ->). destruct St as (_ & (_ & _ & _ & B4 & v0 & B5) & _). rewrite B4, B5. split; reflexivity. }
    (* a message other than Finished *)
    assert (hm_type (heard m) <> htFinished -> acts = [] -> waits_with s' k -> phase_done ce (se ++ Received (heard m) :: map Sent (sent_of acts)) (mkTr (app_data items) [] [] []) C S' up down) as Mid.
    { intros Nt -> Ws. cbn [takeActions] in Ta. injection Ta as <-. destruct l as [|m' l]; cbn [List.app] in Em; rewrite answer_cons in Em; injection Em as <- <-; [destruct Nt; exact T20|].
      destruct Td' as [[_ ->]|(k' & -> & _)]; [|destruct Ws as [|[|[[? ?]|[? ?]]]]; discriminate]. cbn [sent_of flat_map map].
      exists k, l, cfin, (setVersion r1 v), d, items. cbv zeta. split; [exact Ks|]. split; [exact Eo|]. split; [exact Rb|]. split; [exists s'; split; [reflexivity|exact Ws]|].
      split; [destruct Q2 as (Qa & Qb & Qd); split; [exact Qa|]; split; [|exact Qd]; change (w_early w = []); congruence|].
      split; [now inversion Ty|]. split; [exact T20|]. split; [exact A2|]. split; [exact Rr|]. split; [exact Wc|]. split; [exact (flow_version _ _ _ _ _ _ _ _ v Fl)|].
      split; [exact Tx2|]. split; [eapply ghost_out; [exact Dr|apply Tx2|exact Cu|exact Lo]|].
      split; [apply (talk_reads _ _ _ _ _ Tu); reflexivity|]. split; [apply talk_silent; [exact Td|reflexivity]|reflexivity]. }
    destruct Wt as [->|[->|[[cert ->]|[peer ->]]]]; [destruct Rs| | |]; cbn [step_of] in Hst.
    + left. apply server_wait_cert_ok in Hst. destruct Hst as (cert & Ht & _ & _ & _ & -> & Es). apply Mid; [rewrite Ht; discriminate|reflexivity|]. subst s'. destruct (ct_list cert); [right; right; right|right; right; left]; eauto.
    + left. apply server_wait_cv_ok in Hst. destruct Hst as (cv & leaf & rest & Ht & _ & _ & _ & _ & _ & _ & -> & ->). apply Mid; [rewrite Ht; discriminate|reflexivity|]. right. right. right. eauto.
    + right. clear Mid. apply server_wait_finished_ok in Hst. cbv zeta in Hst. destruct Hst as (Ht & _ & _ & -> & Es & Ea).
      assert (l = [] /\ m = pair_of cfin /\ ts' = [ktok EpochApplicationData (sk_suite k) (sk_cts k)]) as (-> & -> & ->).
      { destruct l as [|m' l]; cbn [List.app] in Em; rewrite answer_cons in Em; injection Em as <- <-; [auto|]. exfalso. inversion Ty as [|? ? Tm _]; subst. cbn in Ht. destruct Tm as [Tm|Tm]; rewrite Tm in Ht; discriminate. }
      assert (sent_of acts = []) as Sa by (rewrite Ea; reflexivity). rewrite Sa in *. cbn [map] in *.
      pose proof (acts_quiet E (o_ms o) S w _ c1 _ Q2 (eq_trans We (proj1 (proj2 Q2))) Ta) as Q3.
      assert (c_isClient c1 = false) as Cc by (apply acts_shape in Ta; destruct Ta as (x & p & ->); exact (inv_role _ _ _ (proj1 Sd))).
      assert (w_cfg (c_world c1) = w_cfg w) as Cw by (apply acts_shape in Ta; destruct Ta as (x & p & ->); reflexivity).
      rewrite Ea in Ta. apply take_in in Ta. destruct Ta as (c2 & Z1 & Z2 & Z3 & Ta). cbn [takeActions] in Ta. injection Ta as <-. rewrite ctx_set in Z1, Z2, Z3. change (c_in (set_world S w)) with (inl (w_ctx w)) in Z1.
      pose proof (ahead_rekey _ _ _ _ _ _ _ _ (c_ctx c2) A2 Z1) as ((X1 & X2 & X3 & X4 & X5) & Hd). apply heads_done in Hd. destruct Hd as (F1 & F2 & F3).
      destruct Td' as [[Nc _]|(k' & Ek & Oc)]; [subst s'; contradiction|]. rewrite Es in Ek. injection Ek as <-. rewrite Es in *.
      match type of Oc with on_connected _ _ _ ?q = _ => set (kc := q) in * end.
      destruct Tx2 as (Y1 & Y2 & Y3 & Y4 & Y5).
      assert (inv scfg false S') as Iv by apply Sd'.
      pose proof (frame_next P X o fuel (c_world S) (SWaitFinished k peer)) as Fr. rewrite Hn in Fr. destruct Fr as (Fc & _ & _). cbn [fst] in Fc.
      pose proof (inv_tls _ _ _ (proj1 Sd) (jo_stls _ _ _ _ _ _ _ ok)) as Dt.
      assert (c_cfg c2 = c_cfg S) as Cg by (unfold c_cfg; congruence).
      assert (started S = true) as Sst by (unfold started; now rewrite Hs).
      assert (end_ok (sk_suite k) false (set_complete (set_hState c2 (Connected kc)) kc)) as EO.
      { constructor; try reflexivity.
        - exact Cc.
        - change (cf_useDTLS (c_cfg c2) = false). rewrite Cg. exact Dt.
        - change (cf_psks (c_cfg c2) <> None). rewrite Cg. exact (inv_psks _ _ _ (proj1 Sd) Sst).
        - exact X1.
        - change (hl_datagram (x_out (c_ctx c2)) = false). rewrite Z2. exact Y1.
        - change (hl_max (x_out (c_ctx c2)) = N.to_nat 16384). rewrite Z2. exact Y4.
        - change (x_sent (c_ctx c2) = []). rewrite Z3. exact Y2.
        - change (hl_queued (x_out (c_ctx c2)) = []). rewrite Z2. exact Y3.
        - exact (pending_rem _ F1). }
      assert (direction_ok E (sk_suite k) false (set_complete (set_hState c2 (Connected kc)) kc) C down []) as D1.
      { eapply (out_same _ _ _ (ghost c2 k r1)); [|reflexivity|reflexivity]. eapply ghost_out; [exact Dr| | |]; unfold c_out; rewrite Z2; [exact Y5|exact Cu|exact Lo]. }
      destruct (server_connected E (sk_suite k) (jo_gcm _ _ _ _ _ _ _ ok) (jo_sized _ _ _ _ _ _ _ ok) Ks o _ kc C down S' EO (proj1 (proj2 Q3)) D1 (fun buf => jo_tickets _ _ _ _ _ _ _ ok o buf Qo) Oc)
        as (li & EO' & D2 & Al & Ci & Cst & Rbs).
      exists (sk_suite k), items, li. split; [exact Ks|]. split; [|split; [|split; [|split]]].
      * split; [exact Eo|]. split; [exact EO'|]. cbn [n_client n_server n_up n_down]. split; [|exact D2].
        split; [exact Wc|]. change (c_in (set_hState c2 (Connected kc))) with (inl (c_ctx c2)) in Ci. split; [rewrite Ci; split; [exact X3|exact X5]|].
        rewrite Ci. cbn [negb read_secret write_secret]. rewrite Cst. cbn [kc sc_cts]. rewrite F3, F2. exact (flow_version _ _ _ _ _ _ _ _ v Fl).
      * apply (talk_msgs _ _ [ktok EpochApplicationData (sk_suite k) (sk_cts k)]); [|reflexivity]. eapply talk_reads; [exact Tu|reflexivity].
      * apply talk_silent; [exact Td|reflexivity].
      * rewrite Rbs. change (c_readBuffer (set_hState c2 (Connected kc))) with (c_readBuffer c2). rewrite (proj2 (proj2 Q3)). reflexivity.
      * rewrite Rb, Al. reflexivity.
Qed.

(** ** The network *)

Lemma taken_in c : x_in (c_ctx (taken c)) = x_in (c_ctx c).
Proof. reflexivity. Qed.
Lemma arrives_out c d : x_out (c_ctx (arrives c d)) = x_out (c_ctx c) /\ x_sent (c_ctx (arrives c d)) = x_sent (c_ctx c).
Proof. split; reflexivity. Qed.
Definition phase (ce se : list event) (t : traffic) (C S : conn) (up down : bytes) : Prop :=
  (t = mkTr [] [] [] [] /\ (phase_hello ce se C S up down \/ phase_flight ce se C S up down \/ phase_keys ce se C S up down)) \/
  phase_done ce se t C S up down \/ phase_linked ce se t C S up down.

Lemma hello_takes_client ce se C S up down : phase_hello ce se C S up down -> phase_hello ce se (taken C) S (up ++ concat (l_out (c_out C))) down.
Proof. intros (tsu & tsd & Pu & Pd & H). exists tsu, tsd. split; [now apply pipe_taken|]. split; [exact (pipe_rx _ _ _ _ _ Pd (taken_in C))|]. exact H. Qed.
Lemma hello_takes_server ce se C S up down : phase_hello ce se C S up down -> phase_hello ce se C (taken S) up (down ++ concat (l_out (c_out S))).
Proof. intros (tsu & tsd & Pu & Pd & H). exists tsu, tsd. split; [exact (pipe_rx _ _ _ _ _ Pu (taken_in S))|]. split; [now apply pipe_taken|]. exact H. Qed.
Lemma hello_gets_server ce se C S x y down : phase_hello ce se C S (x ++ y) down -> phase_hello ce se C (arrives S [RBytes x]) y down.
Proof. intros (tsu & tsd & Pu & Pd & H). exists tsu, tsd. split; [now apply pipe_arrives|]. split; [exact (pipe_tx _ _ _ _ _ Pd eq_refl eq_refl)|]. exact H. Qed.
Lemma hello_gets_client ce se C S up x y : phase_hello ce se C S up (x ++ y) -> phase_hello ce se (arrives C [RBytes x]) S up y.
Proof. intros (tsu & tsd & Pu & Pd & H). exists tsu, tsd. split; [exact (pipe_tx _ _ _ _ _ Pu eq_refl eq_refl)|]. split; [now apply pipe_arrives|]. exact H. Qed.

Lemma flight_takes_client ce se C S up down : phase_flight ce se C S up down -> phase_flight ce se (taken C) S (up ++ concat (l_out (c_out C))) down.
Proof.
  intros (ws & k & shs & before & hello & shm & eem & fl & sfin & pre & es & dh & H). exists ws, k, shs, before, hello, shm, eem, fl, sfin, pre, es, dh. cbv zeta in *.
  destruct H as (A & B & D & F & Pu & Pd & H). split; [exact A|]. split; [exact B|]. split; [exact D|]. split; [exact F|]. split; [now apply hole_taken|]. split; [exact (pipe_rx _ _ _ _ _ Pd (taken_in C))|exact H].
Qed.
Lemma flight_takes_server ce se C S up down : phase_flight ce se C S up down -> phase_flight ce se C (taken S) up (down ++ concat (l_out (c_out S))).
Proof.
  intros (ws & k & shs & before & hello & shm & eem & fl & sfin & pre & es & dh & H). exists ws, k, shs, before, hello, shm, eem, fl, sfin, pre, es, dh. cbv zeta in *.
  destruct H as (A & B & D & F & Pu & Pd & H). split; [exact A|]. split; [exact B|]. split; [exact D|]. split; [exact F|]. split; [exact (hole_rx _ _ _ _ _ _ _ Pu (taken_in S))|]. split; [now apply pipe_taken|exact H].
Qed.
Lemma flight_gets_server ce se C S x y down : phase_flight ce se C S (x ++ y) down -> phase_flight ce se C (arrives S [RBytes x]) y down.
Proof.
  intros (ws & k & shs & before & hello & shm & eem & fl & sfin & pre & es & dh & H). exists ws, k, shs, before, hello, shm, eem, fl, sfin, pre, es, dh. cbv zeta in *.
  destruct H as (A & B & D & F & Pu & Pd & H). split; [exact A|]. split; [exact B|]. split; [exact D|]. split; [exact F|]. split; [now apply hole_arrives|]. split; [exact (pipe_tx _ _ _ _ _ Pd eq_refl eq_refl)|exact H].
Qed.
Lemma flight_gets_client ce se C S up x y : phase_flight ce se C S up (x ++ y) -> phase_flight ce se (arrives C [RBytes x]) S up y.
Proof.
  intros (ws & k & shs & before & hello & shm & eem & fl & sfin & pre & es & dh & H). exists ws, k, shs, before, hello, shm, eem, fl, sfin, pre, es, dh. cbv zeta in *.
  destruct H as (A & B & D & F & Pu & Pd & H). split; [exact A|]. split; [exact B|]. split; [exact D|]. split; [exact F|]. split; [exact (hole_tx _ _ _ _ _ _ _ Pu eq_refl eq_refl)|]. split; [now apply pipe_arrives|exact H].
Qed.

Lemma keys_moves ce se C S up down C' S' up' down' : phase_keys ce se C S up down -> c_hState C' = c_hState C -> c_hState S' = c_hState S -> (quiet C -> quiet C') -> (quiet S -> quiet S') ->
  (pipe (c_ctx S) up (c_ctx C) [] -> pipe (c_ctx S') up' (c_ctx C') []) -> (forall ts, pipe (c_ctx C) down (c_ctx S) ts -> pipe (c_ctx C') down' (c_ctx S') ts) ->
  phase_keys ce se C' S' up' down'.
Proof.
  intros (cs & ck & k & shs & before & hello & shm & eem & fl & sfin & pre & es & dh & cevs0 & got & seen & rest & H) H1 H2 H3 H4 H5 H6.
  exists cs, ck, k, shs, before, hello, shm, eem, fl, sfin, pre, es, dh, cevs0, got, seen, rest. cbv zeta in *.
  destruct H as (Hc & Kc & Wt & Hf & Ue & Sk & Tr & Ec & Fs & El & Ie & Pu & Pd & Tu & Td & Q1 & Q2). unfold waiting in *. rewrite H1, H2.
  repeat (split; [solve [auto]|]). auto.
Qed.
Lemma keys_takes_client ce se C S up down : phase_keys ce se C S up down -> phase_keys ce se (taken C) S (up ++ concat (l_out (c_out C))) down.
Proof. intros H. eapply keys_moves; [exact H|reflexivity|reflexivity|exact (fun q => q)|exact (fun q => q)|apply pipe_taken|]. intros ts Pd. exact (pipe_rx _ _ _ _ _ Pd (taken_in C)). Qed.
Lemma keys_takes_server ce se C S up down : phase_keys ce se C S up down -> phase_keys ce se C (taken S) up (down ++ concat (l_out (c_out S))).
Proof. intros H. eapply keys_moves; [exact H|reflexivity|reflexivity|exact (fun q => q)|exact (fun q => q)| |intros ts; apply pipe_taken]. intros Pd. exact (pipe_rx _ _ _ _ _ Pd (taken_in S)). Qed.
Lemma keys_gets_server ce se C S x y down : phase_keys ce se C S (x ++ y) down -> phase_keys ce se C (arrives S [RBytes x]) y down.
Proof. intros H. eapply keys_moves; [exact H|reflexivity|reflexivity|exact (fun q => q)|exact (fun q => q)|apply pipe_arrives|]. intros ts Pd. exact (pipe_tx _ _ _ _ _ Pd eq_refl eq_refl). Qed.
Lemma keys_gets_client ce se C S up x y : phase_keys ce se C S up (x ++ y) -> phase_keys ce se (arrives C [RBytes x]) S up y.
Proof. intros H. eapply keys_moves; [exact H|reflexivity|reflexivity|exact (fun q => q)|exact (fun q => q)| |intros ts; apply pipe_arrives]. intros Pd. exact (pipe_tx _ _ _ _ _ Pd eq_refl eq_refl). Qed.

Lemma done_takes_client ce se t C S up down : phase_done ce se t C S up down -> phase_done ce se t (taken C) S (up ++ concat (l_out (c_out C))) down.
Proof.
  intros (k & l & cfin & r1 & d & items & H). exists k, l, cfin, r1, d, items. cbv zeta in *.
  destruct H as (Ks & Eo & Rb & Wt & Q2 & Ty & T20 & Ah & Rr & Wc & Fl & Tx & Dr & H). split; [exact Ks|]. split; [exact (end_taken _ _ _ Eo)|]. split; [exact Rb|]. split; [exact Wt|]. split; [exact Q2|]. split; [exact Ty|]. split; [exact T20|].
  split; [cbn [taken upd_out upd_ctx c_out]; rewrite <- app_assoc; cbn -[concat c_out]; rewrite app_nil_r; exact Ah|]. split; [exact Rr|]. split; [exact Wc|]. split; [exact Fl|]. split; [exact Tx|]. split; [exact Dr|exact H].
Qed.
Lemma done_takes_server ce se t C S up down : phase_done ce se t C S up down -> phase_done ce se t C (taken S) up (down ++ concat (l_out (c_out S))).
Proof.
  intros (k & l & cfin & r1 & d & items & H). exists k, l, cfin, r1, d, items. cbv zeta in *.
  destruct H as (Ks & Eo & Rb & Wt & Q2 & Ty & T20 & Ah & Rr & Wc & Fl & Tx & Dr & H). split; [exact Ks|]. split; [exact Eo|]. split; [exact Rb|]. split; [exact Wt|]. split; [exact Q2|]. split; [exact Ty|]. split; [exact T20|].
  split; [exact (ahead_same _ _ _ _ _ _ Ah (taken_in S))|]. split; [exact Rr|]. split; [exact Wc|]. split; [exact Fl|]. split; [exact Tx|]. split; [exact (dir_taken _ _ _ _ _ _ _ Dr)|exact H].
Qed.
Lemma done_gets_server ce se t C S x y down : phase_done ce se t C S (x ++ y) down -> phase_done ce se t C (arrives S [RBytes x]) y down.
Proof.
  intros (k & l & cfin & r1 & d & items & H). exists k, l, cfin, r1, d, items. cbv zeta in *.
  destruct H as (Ks & Eo & Rb & Wt & Q2 & Ty & T20 & Ah & Rr & Wc & Fl & Tx & Dr & H). split; [exact Ks|]. split; [exact Eo|]. split; [exact Rb|]. split; [exact Wt|]. split; [exact Q2|]. split; [exact Ty|]. split; [exact T20|].
  split; [apply ahead_arrives; rewrite app_assoc; exact Ah|]. split; [exact Rr|]. split; [exact Wc|]. split; [exact Fl|]. split; [exact Tx|]. split; [exact Dr|exact H].
Qed.
Lemma done_gets_client ce se t C S up x y : phase_done ce se t C S up (x ++ y) -> phase_done ce se t (arrives C [RBytes x]) S up y.
Proof.
  intros (k & l & cfin & r1 & d & items & H). exists k, l, cfin, r1, d, items. cbv zeta in *.
  destruct H as (Ks & Eo & Rb & Wt & Q2 & Ty & T20 & Ah & Rr & Wc & Fl & Tx & Dr & H). split; [exact Ks|]. split; [exact (end_arrives _ _ _ _ Eo)|]. split; [exact Rb|]. split; [exact Wt|]. split; [exact Q2|]. split; [exact Ty|]. split; [exact T20|].
  split; [exact Ah|]. split; [exact Rr|]. split; [exact Wc|]. split; [exact Fl|]. split; [exact Tx|]. split; [exact (dir_arrives _ _ _ _ _ _ _ _ Dr)|exact H].
Qed.

Lemma linked_takes_client ce se t C S up down : phase_linked ce se t C S up down -> phase_linked ce se t (taken C) S (up ++ concat (l_out (c_out C))) down.
Proof.
  intros (s & iu & id & Ks & (E1 & E2 & D1 & D2) & H). exists s, iu, id. split; [exact Ks|]. split; [|exact H]. split; [exact (end_taken _ _ _ E1)|]. split; [exact E2|].
  split; [exact (dir_taken _ _ _ _ _ _ _ D1)|exact D2].
Qed.
Lemma linked_takes_server ce se t C S up down : phase_linked ce se t C S up down -> phase_linked ce se t C (taken S) up (down ++ concat (l_out (c_out S))).
Proof.
  intros (s & iu & id & Ks & (E1 & E2 & D1 & D2) & H). exists s, iu, id. split; [exact Ks|]. split; [|exact H]. split; [exact E1|]. split; [exact (end_taken _ _ _ E2)|].
  split; [exact D1|exact (dir_taken _ _ _ _ _ _ _ D2)].
Qed.
Lemma linked_gets_server ce se t C S x y down : phase_linked ce se t C S (x ++ y) down -> phase_linked ce se t C (arrives S [RBytes x]) y down.
Proof.
  intros (s & iu & id & Ks & (E1 & E2 & D1 & D2) & H). exists s, iu, id. split; [exact Ks|]. split; [|exact H]. split; [exact E1|]. split; [exact (end_arrives _ _ _ _ E2)|].
  split; [exact (dir_arrives _ _ _ _ _ _ _ _ D1)|exact D2].
Qed.
Lemma linked_gets_client ce se t C S up x y : phase_linked ce se t C S up (x ++ y) -> phase_linked ce se t (arrives C [RBytes x]) S up y.
Proof.
  intros (s & iu & id & Ks & (E1 & E2 & D1 & D2) & H). exists s, iu, id. split; [exact Ks|]. split; [|exact H]. split; [exact (end_arrives _ _ _ _ E1)|]. split; [exact E2|].
  split; [exact D1|exact (dir_arrives _ _ _ _ _ _ _ _ D2)].
Qed.

Lemma phase_takes_client ce se t C S up down : phase ce se t C S up down -> phase ce se t (taken C) S (up ++ concat (l_out (c_out C))) down.
Proof.
  intros [[-> [H|[H|H]]]|[H|H]]; [left; split; [reflexivity|left; now apply hello_takes_client]|left; split; [reflexivity|right; left; now apply flight_takes_client]|left; split; [reflexivity|right; right; now apply keys_takes_client]
    |right; left; now apply done_takes_client|right; right; now apply linked_takes_client].
Qed.
Lemma phase_takes_server ce se t C S up down : phase ce se t C S up down -> phase ce se t C (taken S) up (down ++ concat (l_out (c_out S))).
Proof.
  intros [[-> [H|[H|H]]]|[H|H]]; [left; split; [reflexivity|left; now apply hello_takes_server]|left; split; [reflexivity|right; left; now apply flight_takes_server]|left; split; [reflexivity|right; right; now apply keys_takes_server]
    |right; left; now apply done_takes_server|right; right; now apply linked_takes_server].
Qed.
Lemma phase_gets_server ce se t C S x y down : phase ce se t C S (x ++ y) down -> phase ce se t C (arrives S [RBytes x]) y down.
Proof.
  intros [[-> [H|[H|H]]]|[H|H]]; [left; split; [reflexivity|left; now apply hello_gets_server]|left; split; [reflexivity|right; left; now apply flight_gets_server]|left; split; [reflexivity|right; right; now apply keys_gets_server]
    |right; left; now apply done_gets_server|right; right; now apply linked_gets_server].
Qed.
Lemma phase_gets_client ce se t C S up x y : phase ce se t C S up (x ++ y) -> phase ce se t (arrives C [RBytes x]) S up y.
Proof.
  intros [[-> [H|[H|H]]]|[H|H]]; [left; split; [reflexivity|left; now apply hello_gets_client]|left; split; [reflexivity|right; left; now apply flight_gets_client]|left; split; [reflexivity|right; right; now apply keys_gets_client]
    |right; left; now apply done_gets_client|right; right; now apply linked_gets_client].
Qed.

(** ** Calls of [Handshake] *)

Lemma linked_hstates ce se t C S up down : phase_linked ce se t C S up down -> is_connected C = true /\ is_connected S = true.
Proof. intros (s & iu & id & _ & (E1 & E2 & _) & _). split; [exact (eo_connected _ _ _ E1)|exact (eo_connected _ _ _ E2)]. Qed.
Lemma waiting_started S k : waiting S k -> c_hState S <> None.
Proof. intros (s & H & _). congruence. Qed.
Lemma connected_not c s : is_connected c = true -> c_hState c = Some s -> not_connected s -> False.
Proof. unfold is_connected. intros H K N. rewrite K in H. destruct s; try discriminate. exact N. Qed.

Lemma phase_client_turn ce se t C S up down fuel o s C' r : Qc o -> csound ce C -> phase ce se t C S up down -> c_hState C = Some s -> not_connected s -> handshake_turn E fuel o C s = (C', r) -> returned r ->
  small (turn_events E fuel o C s) -> csound (ce ++ turn_events E fuel o C s) C' -> phase (ce ++ turn_events E fuel o C s) se t C' S up down.
Proof.
  intros Qo Sd [[-> [H|[H|H]]]|[H|H]] Hs Nc T R Sm Sd'.
  - left. split; [reflexivity|]. left. eapply hello_client_turn; eauto.
  - left. split; [reflexivity|]. right. eapply flight_client_turn; eauto.
  - destruct (finishing s) eqn:Fi.
    + destruct s; try discriminate. destruct (keys_client_finished _ _ _ _ _ _ _ _ _ _ _ _ _ _ _ Sd H Hs T R Sm Sd') as [K|K]; [left; split; [reflexivity|]; right; right; exact K|right; left; exact K].
    + left. split; [reflexivity|]. right. right. eapply keys_client_turn; eauto.
  - exfalso. destruct H as (k & l & cfin & r1 & d & items & _ & Eo & _). eapply connected_not; [exact (eo_connected _ _ _ Eo)|exact Hs|exact Nc].
  - exfalso. apply linked_hstates in H. eapply connected_not; [exact (proj1 H)|exact Hs|exact Nc].
Qed.
Lemma phase_server_turn ce se t C S up down fuel o s S' r : Qs o -> csound ce C -> ssound se S -> phase ce se t C S up down -> c_hState S = Some s -> not_connected s -> handshake_turn E fuel o S s = (S', r) -> returned r ->
  small (turn_events E fuel o S s) -> ssound (se ++ turn_events E fuel o S s) S' -> phase ce (se ++ turn_events E fuel o S s) t C S' up down.
Proof.
  intros Qo Sc Sd [[-> [H|[H|H]]]|[H|H]] Hs Nc T R Sm Sd'.
  - left. split; [reflexivity|].
    assert (s = SStart \/ exists n, s = SNegotiated n) as [->|(n & ->)].
    { destruct H as (tsu & tsd & _ & _ & _ & _ & _ & _ & _ & G). unfold server_new in G. destruct G as [(_ & Sn & _)|(ws & _ & [(Sn & _)|[(n & Sn & _)|(Sn & _)]])].
      - left. destruct Sn; congruence. - left. destruct Sn; congruence. - right. exists n. congruence. - left. congruence. }
    + left. eapply hello_server_turn; eauto.
    + right. left. eapply hello_server_flight; eauto.
  - left. split; [reflexivity|]. right. left. eapply flight_server_turn; eauto.
  - left. split; [reflexivity|]. right. right. eapply keys_server_turn; eauto.
  - right. eapply done_server_turn; eauto.
  - exfalso. apply linked_hstates in H. eapply connected_not; [exact (proj2 H)|exact Hs|exact Nc].
Qed.
Lemma phase_client_setup ce se t C S up down o C' : csound ce C -> phase ce se t C S up down -> c_hState C = None -> handshakeSetup E o C = (C', Ok tt) ->
  small (setup_events E o C) -> phase (ce ++ setup_events E o C) se t C' S up down.
Proof.
  intros Sd [[-> [H|[H|H]]]|[H|H]] Hs T Sm.
  - left. split; [reflexivity|]. left. eapply hello_client_setup; eauto.
  - destruct H as (ws & k & shs & before & hello & shm & eem & fl & sfin & pre & es & dh & H). cbv zeta in H. destruct H as (A & _). congruence.
  - destruct H as (cs & ck & k & shs & before & hello & shm & eem & fl & sfin & pre & es & dh & cevs0 & got & seen & rest & H). cbv zeta in H. destruct H as (A & _). congruence.
  - destruct H as (k & l & cfin & r1 & d & items & _ & Eo & _). apply eo_connected in Eo. unfold is_connected in Eo. now rewrite Hs in Eo.
  - apply linked_hstates in H. destruct H as [H _]. unfold is_connected in H. now rewrite Hs in H.
Qed.
Lemma phase_server_setup ce se t C S up down o S' : ssound se S -> phase ce se t C S up down -> c_hState S = None -> handshakeSetup E o S = (S', Ok tt) ->
  phase ce (se ++ setup_events E o S) t C S' up down.
Proof.
  intros Sd [[-> [H|[H|H]]]|[H|H]] Hs T.
  - left. split; [reflexivity|]. left. eapply hello_server_setup; eauto.
  - destruct H as (ws & k & shs & before & hello & shm & eem & fl & sfin & pre & es & dh & H). cbv zeta in H. destruct H as (_ & A & _). now apply waiting_started in A.
  - destruct H as (cs & ck & k & shs & before & hello & shm & eem & fl & sfin & pre & es & dh & cevs0 & got & seen & rest & H). cbv zeta in H. destruct H as (_ & _ & A & _). now apply waiting_started in A.
  - destruct H as (k & l & cfin & r1 & d & items & H). cbv zeta in H. destruct H as (_ & _ & _ & A & _). now apply waiting_started in A.
  - apply linked_hstates in H. destruct H as [_ H]. unfold is_connected in H. now rewrite Hs in H.
Qed.

Lemma phase_client_handshake ce se t C S up down fuel os C' r : Forall Qc os -> csound ce C -> phase ce se t C S up down -> handshake E fuel os C = (C', r) -> fine r \/ blocked E fuel os C -> small (handshake_events E fuel os C) ->
  csound (ce ++ handshake_events E fuel os C) C' /\ phase (ce ++ handshake_events E fuel os C) se t C' S up down.
Proof.
  intros Qo Sd Ph T Fr Sm. apply (handshake_ind Qc E (fun evs c => csound evs c /\ phase evs se t c S up down) fuel) with (r := r); auto.
  - intros evs o c s c' r0 Q0 [J1 J2] Hs Nc Tn Rt Sm0. assert (csound (evs ++ turn_events E fuel o c s) c') as J3 by (eapply sound_turn; eauto). split; [exact J3|]. eapply phase_client_turn; eauto.
  - intros evs o c c' Q0 [J1 J2] Hs Tn Sm0. split; [eapply sound_setup; eauto|]. eapply phase_client_setup; eauto.
  - intros evs o c c' r0 Q0 [J1 _] Hs Tn. eapply sound_firm; eauto.
Qed.
Lemma phase_server_handshake ce se t C S up down fuel os S' r : Forall Qs os -> csound ce C -> ssound se S -> phase ce se t C S up down -> handshake E fuel os S = (S', r) -> fine r \/ blocked E fuel os S -> small (handshake_events E fuel os S) ->
  ssound (se ++ handshake_events E fuel os S) S' /\ phase ce (se ++ handshake_events E fuel os S) t C S' up down.
Proof.
  intros Qo Sc Sd Ph T Fr Sm. apply (handshake_ind Qs E (fun evs c => ssound evs c /\ phase ce evs t C c up down) fuel) with (r := r); auto.
  - intros evs o c s c' r0 Q0 [J1 J2] Hs Nc Tn Rt Sm0. assert (ssound (evs ++ turn_events E fuel o c s) c') as J3 by (eapply sound_turn; eauto). split; [exact J3|]. eapply phase_server_turn; eauto.
  - intros evs o c c' Q0 [J1 J2] Hs Tn Sm0. split; [eapply sound_setup; eauto|]. eapply phase_server_setup; eauto.
  - intros evs o c c' r0 Q0 [J1 _] Hs Tn. eapply sound_firm; eauto.
Qed.

(** ** Other calls *)

(** An end that is not connected refuses. *)
Lemma use_refused cfg client c w g c' : inv cfg client c -> is_connected c = false -> w_early (c_world c) = [] -> (client = true -> cf_allowEarlyData cfg = false) -> use_of E c w g c' -> c' = c /\ w = [] /\ g = [].
Proof.
  intros Iv Nc We Ne [b c1 n r T Np|fu os n c1 r T Np|o b c1 r T Np].
  - unfold write in T. assert (writable c = false) as K.
    { unfold writable. rewrite Nc. cbn [orb]. destruct (c_isClient c) eqn:Ci; [|reflexivity]. cbn [andb]. apply N.eqb_neq. intros Ee.
      pose proof (inv_role _ _ _ Iv) as Ro. assert (client = true) as -> by congruence. specialize (Ne eq_refl). rewrite (inv_early _ _ _ Iv eq_refl Ee) in Ne. discriminate. }
    rewrite K in T. injection T as <- <- _. auto.
  - unfold read in T. rewrite Nc, We in T. cbn [negb] in T. destruct (c_isClient c); [injection T as <- <-; auto|]. destruct (negb _); injection T as <- <-; auto.
  - unfold sendKeyUpdate in T. rewrite (inv_complete _ _ _ Iv), Nc in T. injection T as <- _. auto.
Qed.
Lemma quiet_not cfg client c : inv cfg client c -> quiet c -> is_connected c = false.
Proof. intros Iv (Q & _). rewrite <- (inv_complete _ _ _ Iv). exact Q. Qed.
Lemma use_call c w g c' : use_of E c w g c' -> call_of E c w g c'.
Proof. intros [b c1 n r T Np|fu os n c1 r T Np|o b c1 r T Np]; [eapply co_write|eapply co_read|eapply co_update]; eauto. Qed.
Lemma use_other c w g c' : use_of E c w g c' -> other_use E c c'.
Proof.
  intros [b c1 n r T Np|fu os n c1 r T Np|o b c1 r T Np].
  - replace c1 with (fst (write c b)) by now rewrite T. constructor.
  - replace c1 with (fst (read E fu os c n)) by now rewrite T. constructor.
  - replace c1 with (fst (sendKeyUpdate E o c b)) by now rewrite T. constructor.
Qed.

Definition more_client (t : traffic) (w g : bytes) : traffic := mkTr (wrote_c t ++ w) (got_c t ++ g) (wrote_s t) (got_s t).
Definition more_server (t : traffic) (w g : bytes) : traffic := mkTr (wrote_c t) (got_c t) (wrote_s t ++ w) (got_s t ++ g).
Lemma more_nothing t : more_client t [] [] = t /\ more_server t [] [] = t.
Proof. destruct t. unfold more_client, more_server. cbn. now rewrite !app_nil_r. Qed.

Lemma phase_quiet ce se t C S up down : phase ce se t C S up down -> (quiet C /\ quiet S) \/ phase_done ce se t C S up down \/ phase_linked ce se t C S up down.
Proof.
  intros [[-> [H|[H|H]]]|H]; [left..|right; exact H].
  - destruct H as (tsu & tsd & _ & _ & _ & _ & Q1 & Q2 & _). auto.
  - destruct H as (ws & k & shs & before & hello & shm & eem & fl & sfin & pre & es & dh & H). cbv zeta in H. destruct H as (_ & _ & _ & _ & _ & _ & _ & _ & Q1 & Q2). auto.
  - destruct H as (cs & ck & k & shs & before & hello & shm & eem & fl & sfin & pre & es & dh & cevs0 & got & seen & rest & H). cbv zeta in H.
    destruct H as (_ & _ & _ & _ & _ & _ & _ & _ & _ & _ & _ & _ & _ & _ & _ & Q1 & Q2). auto.
Qed.
Lemma linked_client_use ce se t C S up down w g C' : phase_linked ce se t C S up down -> use_of E C w g C' -> phase_linked ce se (more_client t w g) C' S up down.
Proof.
  intros (s & iu & id & Ks & L & Tu & Td & Wc & Ws) U. apply use_call in U. apply linked_client in L. destruct L as [L Es].
  destruct (call_ok E s (jo_gcm _ _ _ _ _ _ _ ok) (jo_sized _ _ _ _ _ _ _ ok) Ks _ _ _ _ _ _ _ _ _ _ L U) as (dn & todo & more & Ed & D & Aw & Ag). cbn [n_client n_server n_up n_down] in *.
  exists s, (iu ++ more), todo. split; [exact Ks|]. split; [apply linked_client; split; [exact D|exact Es]|]. split; [exact Tu|]. split; [exact Td|].
  unfold more_client. cbn [wrote_c got_c wrote_s got_s]. subst id. rewrite !app_data_app in *. split; [rewrite Wc, Aw, !app_assoc; reflexivity|].
  rewrite Ws, <- !app_assoc. f_equal. rewrite !app_assoc. f_equal. exact Ag.
Qed.
Lemma linked_server_use ce se t C S up down w g S' : phase_linked ce se t C S up down -> use_of E S w g S' -> phase_linked ce se (more_server t w g) C S' up down.
Proof.
  intros (s & iu & id & Ks & L & Tu & Td & Wc & Ws) U. apply use_call in U. apply linked_server in L. destruct L as [L Es].
  destruct (call_ok E s (jo_gcm _ _ _ _ _ _ _ ok) (jo_sized _ _ _ _ _ _ _ ok) Ks _ _ _ _ _ _ _ _ _ _ L U) as (dn & todo & more & Ed & D & Aw & Ag). cbn [n_client n_server n_up n_down] in *.
  exists s, todo, (id ++ more). split; [exact Ks|]. split; [apply linked_server; split; [exact D|exact Es]|]. split; [exact Tu|]. split; [exact Td|].
  unfold more_server. cbn [wrote_c got_c wrote_s got_s]. subst iu. rewrite !app_data_app in *. split; [|rewrite Ws, Aw, !app_assoc; reflexivity].
  rewrite Wc, <- !app_assoc. f_equal. rewrite !app_assoc. f_equal. exact Ag.
Qed.
Lemma done_client_use ce se t C S up down w g C' : l_out (c_out C) = [] -> phase_done ce se t C S up down -> use_of E C w g C' -> phase_done ce se (more_client t w g) C' S up down.
Proof.
  intros Lo (k & l & cfin & r1 & d & items & H) U. cbv zeta in H. apply use_call in U.
  destruct H as (Ks & Eo & Rb & Wt & Q2 & Ty & T20 & Ah & Rr & Wc & Fl & Tx & Dr & Tu & Td & ->).
  assert (direction_ok E (sk_suite k) true C (ghost S k r1) d items) as Du.
  { split; [exact Wc|]. change (c_in (ghost S k r1)) with (mkRl r1 (newFrameReader (recordFraming false)) None [] []). split.
    - destruct Rr as (R1 & R2 & R3). split; [|auto]. split; [reflexivity|]. cbn [l_core]. rewrite R1. split; [apply fr_ok_new; cbn; lia|]. constructor.
    - cbn [l_core]. rewrite Lo. change (rl_data _) with (@nil byte). cbn [List.app concat]. rewrite app_nil_r. exact Fl. }
  assert (duplex E (sk_suite k) true C (ghost S k r1) down d [] items) as Dx by (split; [exact Eo|]; split; [exact Dr|exact Du]).
  destruct (call_ok E (sk_suite k) (jo_gcm _ _ _ _ _ _ _ ok) (jo_sized _ _ _ _ _ _ _ ok) Ks _ _ _ _ _ _ _ _ _ _ Dx U) as (dn & todo & more & Ed & (Eo' & Dr' & Du') & Aw & Ag).
  symmetry in Ed. apply app_eq_nil in Ed. destruct Ed as [-> ->]. rewrite Rb in Ag. cbn in Ag. symmetry in Ag. apply app_eq_nil in Ag. destruct Ag as [-> Rb'].
  destruct Du' as (Wc' & _ & Fl'). exists k, l, cfin, r1, (d ++ concat (l_out (c_out C'))), (items ++ more). cbv zeta.
  split; [exact Ks|]. split; [exact Eo'|]. split; [exact Rb'|]. split; [exact Wt|]. split; [exact Q2|]. split; [exact Ty|]. split; [exact T20|].
  split; [rewrite Lo in Ah; cbn [concat] in Ah; rewrite app_nil_r in Ah; now apply ahead_more|]. split; [exact Rr|]. split; [exact Wc'|].
  split; [exact Fl'|]. split; [exact Tx|]. split; [exact Dr'|]. split; [exact Tu|]. split; [exact Td|].
  unfold more_client. cbn [wrote_c got_c wrote_s got_s]. rewrite app_data_app, Aw. reflexivity.
Qed.
Lemma phase_client_use ce se t C S up down w g C' : l_out (c_out C) = [] -> csound ce C -> phase ce se t C S up down -> use_of E C w g C' -> phase ce se (more_client t w g) C' S up down.
Proof.
  intros Lo Sd Ph U. destruct (phase_quiet _ _ _ _ _ _ _ Ph) as [[Q1 Q2]|[H|H]].
  - destruct (use_refused ccfg true C w g C' (proj1 Sd) (quiet_not _ _ _ (proj1 Sd) Q1) (proj1 (proj2 Q1)) (fun _ => jo_early _ _ _ _ _ _ _ ok) U) as (-> & -> & ->). rewrite (proj1 (more_nothing t)). exact Ph.
  - right. left. eapply done_client_use; eauto.
  - right. right. eapply linked_client_use; eauto.
Qed.
Lemma phase_server_use ce se t C S up down w g S' : ssound se S -> phase ce se t C S up down -> use_of E S w g S' -> phase ce se (more_server t w g) C S' up down.
Proof.
  intros Sd Ph U. assert (quiet S -> phase ce se (more_server t w g) C S' up down) as Q.
  { intros Q2. destruct (use_refused scfg false S w g S' (proj1 Sd) (quiet_not _ _ _ (proj1 Sd) Q2) (proj1 (proj2 Q2)) ltac:(discriminate) U) as (-> & -> & ->). rewrite (proj2 (more_nothing t)). exact Ph. }
  destruct (phase_quiet _ _ _ _ _ _ _ Ph) as [[Q1 Q2]|[H|H]]; [now apply Q| |].
  - apply Q. destruct H as (k & l & cfin & r1 & d & items & H). cbv zeta in H. apply H.
  - right. right. eapply linked_server_use; eauto.
Qed.

(** ** Whole connections *)

Lemma new_pipe cfg psks client cfg' psks' client' : cf_useDTLS cfg = false -> cf_useDTLS cfg' = false -> pipe (c_ctx (newConn cfg psks client [])) [] (c_ctx (newConn cfg' psks' client' [])) [].
Proof.
  intros D D'. unfold pipe, newConn. rewrite D, D'. cbn -[N.to_nat rx_ok]. assert (wr_ok (l_core (newRecordLayer false DirWrite []))) as Wr by (split; [reflexivity|]; split; [reflexivity|]; split; [cbv; lia|exact I]).
  assert (rcore_ok (l_core (newRecordLayer false DirRead []))) as Rr by (split; [reflexivity|]; split; [reflexivity|cbv; lia]).
  split; [split; [reflexivity|]; split; [reflexivity|]; split; [reflexivity|]; split; [reflexivity|exact Wr]|].
  eexists. split; [|split; [exact Rr|]].
  - split; [|apply h_nil]. split; [reflexivity|]. split; [reflexivity|]. split; [|split; [apply fr_ok_new; cbn; lia|exact Rr]].
    split; [reflexivity|]. split; [apply fr_ok_new; cbn; lia|constructor].
  - split; [reflexivity|]. intros F. destruct F. reflexivity.
Qed.
Lemma new_phase : phase_hello [] [] (newConn ccfg cpsks true []) (newConn scfg spsks false []) [] [].
Proof.
  exists [], []. split; [apply new_pipe; [exact (jo_stls _ _ _ _ _ _ _ ok)|exact (jo_ctls _ _ _ _ _ _ _ ok)]|]. split; [apply new_pipe; [exact (jo_ctls _ _ _ _ _ _ _ ok)|exact (jo_stls _ _ _ _ _ _ _ ok)]|].
  split; [repeat split; constructor|]. split; [repeat split; constructor|]. split; [repeat split|]. split; [repeat split|]. split.
  - unfold clear, newConn. rewrite (jo_ctls _ _ _ _ _ _ _ ok). reflexivity.
  - left. split; [left; reflexivity|]. split; [left; reflexivity|]. split; reflexivity.
Qed.

Definition joined (ce se : list event) (t : traffic) (n : net) : Prop :=
  csound ce (n_client n) /\ ssound se (n_server n) /\ phase ce se t (n_client n) (n_server n) (n_up n) (n_down n) /\ l_out (c_out (n_client n)) = [] /\ l_out (c_out (n_server n)) = [].

Lemma taken_other c : other_use E c (taken c). Proof. constructor. Qed.
Lemma arrives_other c d : other_use E c (arrives c d). Proof. constructor. Qed.
Lemma session_joined ce se t n : session Qc Qs E ccfg scfg cpsks spsks ce se t n -> joined ce se t n.
Proof.
  induction 1 as [|ce se t n fuel os c' r _ (A & B & Ph & L1 & L2) Qo T Fr Sm|ce se t n fuel os c' r _ (A & B & Ph & L1 & L2) Qo T Fr Sm|ce se t n w g c' _ (A & B & Ph & L1 & L2) U|ce se t n w g c' _ (A & B & Ph & L1 & L2) U
    |ce se t n x y _ (A & B & Ph & L1 & L2) Ex|ce se t n x y _ (A & B & Ph & L1 & L2) Ex]; unfold joined, client_calls, server_calls; cbn [n_client n_server n_up n_down].
  - split; [|split; [|split; [|split; reflexivity]]].
    + split; [apply inv_new|]. split; [reflexivity|]. split; [reflexivity|]. split; reflexivity.
    + split; [apply inv_new|]. split; [reflexivity|]. split; [reflexivity|]. split; reflexivity.
    + left. split; [reflexivity|]. left. exact new_phase.
  - destruct (phase_client_handshake _ _ _ _ _ _ _ _ _ _ _ Qo A Ph T Fr Sm) as [A' Ph'].
    split; [exact (sound_other _ _ _ _ _ _ _ _ A' (taken_other _))|]. split; [exact B|]. split; [now apply phase_takes_client|]. split; [reflexivity|exact L2].
  - destruct (phase_server_handshake _ _ _ _ _ _ _ _ _ _ _ Qo A B Ph T Fr Sm) as [B' Ph'].
    split; [exact A|]. split; [exact (sound_other _ _ _ _ _ _ _ _ B' (taken_other _))|]. split; [now apply phase_takes_server|]. split; [exact L1|reflexivity].
  - split; [exact (sound_other _ _ _ _ _ _ _ _ (sound_other _ _ _ _ _ _ _ _ A (use_other _ _ _ _ U)) (taken_other _))|]. split; [exact B|].
    split; [|split; [reflexivity|exact L2]]. apply phase_takes_client. exact (phase_client_use _ _ _ _ _ _ _ _ _ _ L1 A Ph U).
  - split; [exact A|]. split; [exact (sound_other _ _ _ _ _ _ _ _ (sound_other _ _ _ _ _ _ _ _ B (use_other _ _ _ _ U)) (taken_other _))|].
    split; [|split; [exact L1|reflexivity]]. apply phase_takes_server. exact (phase_server_use _ _ _ _ _ _ _ _ _ _ B Ph U).
  - split; [exact A|]. split; [exact (sound_other _ _ _ _ _ _ _ _ B (arrives_other _ _))|]. split; [|split; [exact L1|exact L2]]. apply phase_gets_server. rewrite <- Ex. exact Ph.
  - split; [exact (sound_other _ _ _ _ _ _ _ _ A (arrives_other _ _))|]. split; [exact B|]. split; [|split; [exact L1|exact L2]]. apply phase_gets_client. rewrite <- Ex. exact Ph.
Qed.

End Joint.
