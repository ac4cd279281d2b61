(** A client that does not allow early data neither sends nor offers it. *)
From Verif Require Import Base Syntax Frame Record Handshake Crypto CryptoSpec CryptoProofs Messages MessageProofs MessageProofs3 Pki Negotiation NegotiationProofs Machine MachineProofs Cookie Client Server StepProofs Conn ConnSpec ConnProofs RunSpec RunProofs TraceProofs SessionSpec SessionProofs HelloProofs ClientRun ClientSession ServerRun ServerSession AgreeSpec AgreeProofs.

Lemma parse_one_found {S} l t (un : S -> bytes -> res S) u : of_type u l = [] -> forall found s found' s', el_parse_one l t un found s = Ok (found', s') ->
  existsb (N.eqb u) found' = existsb (N.eqb u) found.
Proof.
  induction l as [|e l IH]; intros O found s found' s' H; cbn [el_parse_one] in H; [now injection H as <- _|].
  unfold of_type in O; cbn [filter] in O. destruct (N.eqb_spec (e_type e) u) as [Eu|Ne]; [discriminate|]. fold (of_type u l) in O.
  destruct (N.eqb_spec (e_type e) t) as [Et|_]; [|now apply (IH O _ _ _ _ H)]. destruct (existsb _ _); [discriminate|]. inv_bind H as s1 H1.
  apply IH in H; [|exact O]. rewrite H. cbn [existsb]. destruct (N.eqb_spec u t); [congruence|reflexivity].
Qed.
Lemma parse_found {S} l u : of_type u l = [] -> forall dsts found (s : S) found' s', el_parse_all l dsts found s = Ok (found', s') -> existsb (N.eqb u) found' = existsb (N.eqb u) found.
Proof.
  intros O. induction dsts as [|[t un] dsts IH]; intros found s found' s' H; cbn [el_parse_all] in H; [now injection H as <- _|].
  inv_bind H as [f1 s1] H1. apply IH in H. rewrite H. now apply (parse_one_found l t un u O _ _ _ _ H1).
Qed.

Lemma client_psk_no_early P o cfg st ch key ps ch' es early : client_psk P o cfg st ch key ps = Ok (ch', es, early) -> cf_allowEarlyData cfg = false ->
  of_type 42 (ch_exts ch') = of_type 42 (ch_exts ch).
Proof.
  unfold client_psk. cbv zeta. intros H A. rewrite A in H. cbn [andb] in H. cbn [bind] in H. destruct (cf_pskModes cfg); [discriminate|].
  inv_bind H as l1 H2. inv_bind H as t H3. inv_bind H as l2 H4. apply Ok_inj in H. injection H as <- _ _. cbn [set_exts ch_exts] in *.
  assert (of_type 42 l1 = of_type 42 (ch_exts ch)) as E1.
  { apply ignoring_cases in H2. destruct H2 as [A1| ->]; [|reflexivity]. exact (add_others _ _ _ _ 42 A1 ltac:(discriminate)). }
  rewrite <- E1. apply ignoring_cases in H4. destruct H4 as [A1| ->]; [|reflexivity]. exact (add_others _ _ _ _ 42 A1 ltac:(discriminate)).
Qed.
Lemma start_no_early P o w st w' ws acts retry cfg : client_start P o w st = (w', Ok (CWaitSH ws, acts, retry)) -> cf_allowEarlyData (w_cfg w) = false ->
  cf_extensionHandler (w_cfg w) = None -> w_kind w = (cf_useDTLS cfg, cf_useDTLS cfg) ->
  exists ch, ch_marshal ch = Ok (hm_body (ws_hello ws)) /\ ch_version ch = hello_version cfg /\ of_type 42 (ch_exts ch) = [].
Proof.
  intros C A Hh Hk. apply client_start_hello in C. destruct C as (shares & exts0 & exts & random & ch & _ & Ce & Es & (Mb & _) & C). cbv zeta in C.
  unfold ext_send in Es. rewrite Hh in Es. apply Ok_inj in Es. subst exts0. apply client_extensions_values in Ce. destruct Ce as (_ & _ & O41 & O42).
  exists ch. split; [exact Mb|]. rewrite (wire_version _ _ Hk) in C. destruct (cache_get _ _) as [key|].
  - destruct C as (ps & es & early & _ & C). pose proof (client_psk_values _ _ _ _ _ _ _ _ _ _ C O41) as (V & _). split; [exact V|].
    rewrite (client_psk_no_early _ _ _ _ _ _ _ _ _ _ C A). exact O42.
  - subst ch. cbn [ch_version ch_exts]. auto.
Qed.

Section Client.
Variables (Q : oracle -> Prop) (E : env) (cfg : config) (psks : cache).
Hypothesis no_early : cf_allowEarlyData cfg = false.
Hypothesis no_handler : cf_extensionHandler cfg = None.

Lemma init_allow l : cf_allowEarlyData (set_suites (cfg_init cfg) l) = cf_allowEarlyData cfg /\ cf_extensionHandler (set_suites (cfg_init cfg) l) = cf_extensionHandler cfg.
Proof. split; reflexivity. Qed.
Lemma start_sends P o w st w' s acts retry : st_params st = no_params -> cf_allowEarlyData (w_cfg w) = false -> client_start P o w st = (w', Ok (s, acts, retry)) ->
  exists ws, s = CWaitSH ws /\ p_clientSendingEarlyData (ws_params ws) = false /\ p_usingEarlyData (ws_params ws) = false /\
    acts = [QueueHandshakeMessage (ws_hello ws); SendQueuedHandshake] /\ retry = false.
Proof.
  intros Np A C. apply client_start_ok in C. destruct C as (ws & ch & sending & k & -> & -> & -> & _ & Hp & _ & _ & _ & _ & _ & Hs & _).
  assert (sending = false) as ->. { rewrite Np, A in Hs. destruct (ws_psk ws); [destruct Hs as (ps & _ & _ & _ & ->)|destruct Hs as [_ ->]]; reflexivity. }
  exists ws. rewrite Hp, Np. cbn. auto 6.
Qed.
Lemma wait_sh_quiet evs w ws : at_wait_sh Q E cfg psks evs w ws -> p_clientSendingEarlyData (ws_params ws) = false /\ p_usingEarlyData (ws_params ws) = false /\
  exists ch, ch_marshal ch = Ok (hm_body (ws_hello ws)) /\ ch_version ch = hello_version cfg /\ of_type 42 (ch_exts ch) = [].
Proof.
  intros (evs0 & o & w0 & w1 & st & acts & _ & ((_ & Wk & ([l L] & _) & _) & _ & _ & Np & _) & C & _).
  assert (cf_allowEarlyData (w_cfg w0) = false) as A by (rewrite L; exact no_early).
  assert (cf_extensionHandler (w_cfg w0) = None) as A' by (rewrite L; exact no_handler).
  destruct (start_sends _ _ _ _ _ _ _ _ Np A C) as (ws' & [= <-] & S1 & S2 & _). split; [exact S1|]. split; [exact S2|].
  eapply start_no_early; eauto.
Qed.
End Client.

(** The server has no early data to decide on. *)
Lemma server_no_early P X o w hm w' n acts retry ch cfg : server_start P X o w hm = (w', Ok (SNegotiated n, acts, retry)) -> cf_extensionHandler (w_cfg w) = None ->
  w_kind w = (cf_useDTLS cfg, cf_useDTLS cfg) -> ch_marshal ch = Ok (hm_body hm) -> ch_version ch = hello_version cfg -> of_type 42 (ch_exts ch) = [] ->
  p_usingEarlyData (n_params n) = false /\ p_rejectedEarlyData (n_params n) = false.
Proof.
  intros H Hh Hk M V O. apply server_start_ok in H.
  destruct H as (ch' & exts & found & x & v & first & dhs & dh & chosen & suite & hrr & again & w1 & w2 & w3 & _ & U & _ & R & Pa & _ & _ & _ & _ & _ & _ & H). cbv zeta in H.
  unfold ext_recv in R. rewrite Hh in R. apply Ok_inj in R. subst exts. rewrite (wire_version _ _ Hk) in U. destruct (hello_decoded _ _ _ _ M V U) as (_ & _ & Ex).
  unfold el_parse in Pa. rewrite Ex in Pa. apply (parse_found _ _ O) in Pa. cbn [existsb] in Pa. change 42 with etEarlyData in Pa.
  destruct (pskModeNegotiation _ _ _) as [usingDH usingPSK]. destruct H as (_ & _ & _ & -> & _ & H). destruct again; [destruct H as [H _]; discriminate|].
  destruct H as (_ & cert & scheme & proto & _ & _ & _ & _ & H). rewrite Pa in H. unfold earlyDataNegotiation in H. cbn [andb] in H. injection H as ->. split; reflexivity.
Qed.
